(** The executor and the machine of Spec/Machine.v (C99, C100). *)
From Coq Require Import Lia String Permutation.
From Verif Require Import Model.Common Model.Records Model.Jobs Model.TaskSet Model.Dag
     Model.Sched Model.Exec Spec.Graph Spec.Trace Spec.Parallel Spec.Machine
     Proofs.Sets Proofs.SchedFacts Proofs.InvalFacts Proofs.TraceFacts Proofs.ExecInv
     Proofs.ExecStep Proofs.ExecCtl Proofs.LogFacts Proofs.ExecProps Proofs.ExecProps2
     Proofs.StepCases Proofs.ExecProps3 Proofs.ExecProps4 Proofs.Ticks Proofs.Threads Proofs.OneTick
     Proofs.Dispatch Proofs.RunCall.
Open Scope nat_scope.
Open Scope list_scope.

Lemma jobs_app a b : jobs (a ++ b) = jobs a ++ jobs b.
Proof. unfold jobs. apply flat_map_app. Qed.
Definition J (log : list event) : list job_step := jobs (rev log).
Lemma J_cons e log : J (e :: log) = J log ++ job_part e.
Proof. unfold J. cbn [rev]. rewrite jobs_app. cbn. rewrite app_nil_r. reflexivity. Qed.
Lemma J_app a l : J (a ++ l) = J l ++ J a.
Proof. unfold J. rewrite rev_app_distr, jobs_app. reflexivity. Qed.
Lemma J_end log n o : In (Ends n o) (J log) <-> In (EEnd n o) log.
Proof.
  unfold J, jobs. rewrite in_flat_map. split.
  - intros [e [He H]]. apply in_rev in He. destruct e; cbn in H; try contradiction;
      destruct H as [H|[]]; inversion H; subst; exact He.
  - intros H. exists (EEnd n o). split; [apply in_rev in H; exact H|left; reflexivity].
Qed.
Lemma J_begin log n : In (Begins n) (J log) <-> In (EBegin n) log.
Proof.
  unfold J, jobs. rewrite in_flat_map. split.
  - intros [e [He H]]. apply in_rev in He. destruct e; cbn in H; try contradiction;
      destruct H as [H|[]]; inversion H; subst; exact He.
  - intros H. exists (EBegin n). split; [apply in_rev in H; exact H|left; reflexivity].
Qed.
Lemma J_active log : active (J log) = run_l log.
Proof.
  unfold active, J, run_l, running, jobs. generalize (@nil nid). induction (rev log) as [|e l IH]; intros a; [reflexivity|].
  cbn [flat_map fold_left]. rewrite fold_left_app, <- IH. destruct e; reflexivity.
Qed.

Section Sound.
Variable c : config.
Hypothesis Hra : requires_after (c_dag c).
Local Notation d := (c_dag c).

Lemma failed_more a b n : failed_in c a n -> failed_in c (a ++ b) n.
Proof.
  intros H. induction H as [n o H1 H2|n p H1 H2 IH].
  - eapply failed_job; [apply in_app_iff; left; exact H1|exact H2].
  - eapply failed_dep; eauto.
Qed.
Lemma settled_more a b n : settled c a n -> settled c (a ++ b) n.
Proof.
  intros [[o H]|[H|[p [H1 H2]]]].
  - left. exists o. apply in_app_iff. left; exact H.
  - right; left; exact H.
  - right; right. exists p. split; [exact H1|]. apply failed_more, H2.
Qed.

Lemma recs_after_split l1 er r x l2 r' : In r' (recs l2) -> In r' (recs (l1 ++ EAfterRun er r x :: l2)).
Proof.
  intros H. apply recs_In in H. destruct H as (er' & x' & H). apply recs_In. exists er', x'.
  apply in_app_iff. right; right. exact H.
Qed.

(** a bad record means that the task counts as failed *)
Lemma bad_failed : forall k log r, List.length log <= k -> log_ok c log -> In r (recs log) ->
  is_bad (r_status r) = true -> failed_in c (J log) (r_node r).
Proof.
  induction k as [|k IH]; intros log r Hk Hok Hr Hb.
  - destruct log; [destruct Hr|cbn in Hk; lia].
  - destruct (rec_at c log r Hok Hr) as (l1 & er & x & l2 & -> & He & Hok2).
    rewrite J_app, J_cons. cbn [job_part]. rewrite app_nil_r. apply failed_more.
    cbn in He. destruct He as (_ & _ & _ & _ & _ & (_ & _ & He) & _).
    assert (Hl : List.length l2 <= k) by (rewrite app_length in Hk; cbn in Hk; lia).
    destruct (r_status r); cbn in Hb; try discriminate.
    + destruct He as ((m & r' & Hq & Hr' & <- & Hb') & _). apply failed_dep with (r_node r'); [exact Hq|].
      apply IH; assumption.
    + destruct He as (_ & _ & _ & o & Ho & Hc & _ & _ & Hf). apply failed_job with o; [apply J_end, Ho|].
      rewrite Hc in Hf. destruct o; cbn in *; try discriminate. apply Hf. reflexivity.
Qed.

Lemma launch_in_prefix l1 er r x l2 : log_ok c (l1 ++ EAfterRun er r x :: l2) ->
  In (ELaunch (r_node r)) (l1 ++ EAfterRun er r x :: l2) -> In (ELaunch (r_node r)) l2.
Proof.
  intros Hok H. apply in_app_iff in H. destruct H as [H|[H|H]]; [|discriminate|exact H]. exfalso.
  apply in_split in H. destruct H as (a & b & ->). rewrite <- app_assoc in Hok. cbn in Hok.
  apply (no_launch_after_record c a (r_node r) (b ++ EAfterRun er r x :: l2)) in Hok. apply Hok.
  exists r. split; [|reflexivity]. apply recs_In. exists er, x. apply in_app_iff. right; left. reflexivity.
Qed.

(** and the other way round *)
Lemma failed_bad : forall log n, log_ok c log -> failed_in c (J log) n -> forall r, In r (recs log) ->
  r_node r = n -> is_bad (r_status r) = true.
Proof.
  intros log n Hok H. induction H as [n o Ho Hc|n p Hq Hp IH]; intros r Hr En; subst n.
  - apply J_end in Ho.
    destruct (rec_at c log r Hok Hr) as (l1 & er & x & l2 & -> & He & Hok2).
    assert (Hl : In (ELaunch (r_node r)) l2).
    { apply launch_in_prefix with l1 er x; [exact Hok|].
      apply (begin_launch c); [exact Hok|]. eapply (end_begin c); [exact Hok|exact Ho]. }
    cbn in He. destruct He as (_ & _ & _ & _ & _ & (_ & _ & He) & _).
    destruct (r_status r) eqn:Es; try reflexivity; [|exfalso; tauto].
    destruct He as (_ & _ & _ & o' & Ho' & Hc' & _ & _ & Hf).
    assert (o' = o).
    { eapply (end_unique c); [exact Hok| |exact Ho]. apply in_app_iff. right; right. exact Ho'. }
    subst o'. exfalso. assert (X : OK = FAIL); [|discriminate].
    apply Hf. rewrite Hc'. destruct o; cbn in *; [exact Hc|discriminate|discriminate].
  - destruct (rec_at c log r Hok Hr) as (l1 & er & x & l2 & -> & He & Hok2).
    cbn in He. destruct He as (_ & _ & _ & _ & Har & (_ & _ & He) & _).
    destruct (Har p (Hra _ _ Hq)) as (r' & Hr' & Ep).
    assert (Hb : is_bad (r_status r') = true) by (apply IH; [apply recs_after_split, Hr'|exact Ep]).
    destruct (r_status r) eqn:Es; try reflexivity.
    + destruct He as (_ & _ & Hd & _). rewrite (Hd p r' Hq (Hra _ _ Hq) Hr' Ep) in Hb. discriminate.
    + destruct He as (_ & Hd & _). rewrite (Hd p r' Hq Hr' Ep) in Hb. discriminate.
Qed.

Lemma recorded_settled log n : log_ok c log -> recorded_l log n -> settled c (J log) n.
Proof.
  intros Hok (r & Hr & <-). destruct (rec_at c log r Hok Hr) as (l1 & er & x & l2 & -> & He & Hok2).
  rewrite J_app, J_cons. cbn [job_part]. rewrite app_nil_r. apply settled_more.
  cbn in He. destruct He as (_ & _ & _ & _ & _ & (_ & _ & He) & _).
  assert (G : (exists o, In (EEnd (r_node r) o) l2) -> settled c (J l2) (r_node r)).
  { intros [o Ho]. left. exists o. apply J_end, Ho. }
  destruct (r_status r).
  - destruct He as (_ & _ & _ & o & Ho & _). eauto.
  - right; left. apply He.
  - destruct He as ((m & r' & Hq & Hr' & <- & Hb) & _). right; right. exists (r_node r'). split; [exact Hq|].
    eapply bad_failed; eauto.
  - destruct He as (_ & _ & _ & o & Ho & _). eauto.
Qed.

Lemma recorded_closed log : log_ok c log -> forall n m, clos_trans nid (runs_after d) n m ->
  recorded_l log n -> recorded_l log m.
Proof.
  intros Hok n m H. induction H as [n m H|n k m H1 IH1 H2 IH2]; [|auto].
  intros (r & Hr & <-). destruct (rec_at c log r Hok Hr) as (l1 & er & x & l2 & -> & He & Hok2).
  cbn in He. destruct He as (_ & _ & _ & _ & Har & _). destruct (Har m H) as (r' & Hr' & E).
  exists r'. split; [apply recs_after_split, Hr'|exact E].
Qed.
Lemma after_closed log n m : log_ok c log -> after_recorded c log n -> clos_trans nid (runs_after d) n m ->
  recorded_l log m.
Proof.
  intros Hok Ha H. apply clos_trans_t1n in H. inversion H as [? H1|? ? H1 H2]; subst; [apply Ha, H1|].
  eapply recorded_closed; [exact Hok| |apply Ha, H1]. apply clos_t1n_trans. exact H2.
Qed.

Lemma launch_turn log n : log_ok c log -> In (ELaunch n) log -> ~ recorded_l log n ->
  ~ In (EBegin n) log -> turn c (J log) n.
Proof.
  intros Hok Hl Hnr Hnb. destruct (log_in c log _ Hok Hl) as (l1 & l2 & -> & (He & _) & Hok2). cbn in He.
  destruct He as (_ & _ & _ & Ha & Hi & Hid & Hd).
  assert (M : forall m, recorded_l l2 m -> recorded_l (l1 ++ ELaunch n :: l2) m).
  { intros m (r & Hr & E). exists r. split; [|exact E]. apply recs_In in Hr. destruct Hr as (a & b & Hr).
    apply recs_In. exists a, b. apply in_app_iff. right; right; exact Hr. }
  split; [exact Hid|]. split; [rewrite J_begin; exact Hnb|]. split; [exact Hi|]. split.
  - intros p Hq Hf. destruct (Ha p (Hra _ _ Hq)) as (r & Hr & E).
    assert (Hb : is_bad (r_status r) = true).
    { eapply failed_bad; [exact Hok|exact Hf| |exact E]. apply recs_In in Hr. destruct Hr as (a & b & Hr).
      apply recs_In. exists a, b. apply in_app_iff. right; right; exact Hr. }
    rewrite (Hd p r Hq Hr E) in Hb. discriminate.
  - intros m Hm. apply recorded_settled; [exact Hok|]. apply (after_closed _ n); [exact Hok| |exact Hm].
    intros k Hk. apply M, Ha, Hk.
Qed.

Lemma launch_executable log n : log_ok c log -> In (ELaunch n) log -> executable c.
Proof.
  intros Hok Hl. split; [eapply launch_acyclic; eassumption|]. intros m Hm.
  destruct (log_in c log _ Hok Hl) as (l1 & l2 & -> & _ & Hok2).
  destruct (startup_launch c l1 n l2 Hok) as [Has _].
  destruct (Has m Hm) as [_ (v & t & Hi)].
  destruct (log_in c l2 _ Hok2 Hi) as (a1 & a2 & -> & (He & _) & Hok3). cbn in He.
  destruct He as (_ & _ & _ & _ & (b & Eb & _) & (l & El)). subst a2. destruct Hok3 as [[Hk _] _]. cbn in Hk.
  split; [apply Hk|]. rewrite Eb. discriminate.
Qed.

Lemma sound_log : forall log, log_ok c log -> machine c (J log).
Proof.
  induction log as [|e log IH]; intros Hok; [constructor|]. rewrite J_cons.
  destruct Hok as [[He _] Hok]. specialize (IH Hok).
  destruct e; cbn [job_part]; rewrite ?app_nil_r; try exact IH.
  - cbn beta iota delta [ev_cond] in He. destruct He as (Hl & Hnb & Hnr & _ & Hres & Hlen). constructor.
    + exact IH.
    + eapply launch_executable; eassumption.
    + apply launch_turn; assumption.
    + rewrite J_active. exact Hres.
    + rewrite J_active. lia.
  - cbn in He. destruct He as (Hb & Hne & _). constructor; [exact IH|apply J_begin, Hb|].
    intros o' H. apply Hne. exists o'. apply J_end, H.
Qed.
End Sound.

Lemma machine_sound : forall c z s,
  wf_dag (c_dag c) -> requires_after (c_dag c) -> reachable c z s -> machine c (jobs (trace s)).
Proof.
  intros c z s Hwf Hra HR. change (jobs (trace s)) with (J (s_log s)).
  apply sound_log; [exact Hra|]. apply (r_log c z s Hwf HR).
Qed.

(** * Whole calls of tick() in which no job begins or ends *)
Section Silent.
Variables (c : config) (z : Z).
Hypothesis Hwf : wf_dag (c_dag c).
Hypothesis Hthr : 0 < c_threads c.
Hypothesis Hex : executable c.

Lemma J_quiet es log : (forall a, In a es -> job_part a = []) -> J (es ++ log) = J log.
Proof.
  induction es as [|e es IH]; intros H; [reflexivity|]. cbn [app]. rewrite J_cons, (H e (or_introl eq_refl)), app_nil_r.
  apply IH. intros a Ha. apply H. right; exact Ha.
Qed.

Lemma quiet_ctl s s' : reachable c z s -> ctl c s true = Some s' -> J (s_log s') = J (s_log s).
Proof.
  intros HR E. pose proof (r_inv c z s Hwf HR) as HI.
  assert (G : forall s2 es, s_log s2 = es ++ s_log s -> (forall a, In a es -> job_part a = []) ->
            J (s_log s2) = J (s_log s)).
  { intros s2 es -> H. apply J_quiet, H. }
  destruct (ctl_cases c s s' HI E) as
      [ph kept sl rest n s' Epc Esl _ Es|ph kept sl rest n s' Epc Esl _ _ Es
      |ph kept sl rest n s1 s' Epc Esl _ _ Es1 Es|ph kept sl rest n rec s' Epc Esl Ef Es
      |ph kept sl rest n rec s' Epc Esl Ht Es|ph kept sl rest n rec o s1 s2 s' Epc Esl _ Es1 Es2 Es
      |kept s1 s' Epc Es1 Es|kept s1 s' Epc Es1 Es|e s' Epc Es|e sl rest s' Epc _ Es|s' Epc Es|sl rest s' Epc _ Es].
  - eapply (G _ [_; _]); [subst s'; reflexivity|]. intros a [<-|[<-|[]]]; reflexivity.
  - eapply (G _ [_; _]); [subst s'; reflexivity|]. intros a [<-|[<-|[]]]; reflexivity.
  - eapply (G _ [_; _]); [subst s' s1; reflexivity|]. intros a [<-|[<-|[]]]; reflexivity.
  - exfalso. pose proof (k_kind _ _ _ _ (i_core _ _ HI) n) as K. unfold deferred in K.
    replace (c_threads c =? 0) with false in K by (symmetry; apply Nat.eqb_neq; lia).
    rewrite Ef in K. destruct K; congruence.
  - eapply (G _ [_]); [subst s'; reflexivity|]. intros a [<-|[]]; reflexivity.
  - eapply (G _ [_; _]); [subst s' s1 s2; destruct (negb _); reflexivity|].
    intros a [<-|[<-|[]]]; reflexivity.
  - apply (G _ []); [|intros a []]. subst s1.
    destruct (dispatch_cases c s kept s' Hwf HI Epc Es) as [s' E1 E2 E3 E4|m0 s' E1 E2 E3 E4|s' E1 E2 E3];
        rewrite E1; reflexivity.
  - apply (G _ []); [subst s' s1; reflexivity|intros a []].
  - apply (G _ []); [subst s'; reflexivity|intros a []].
  - apply (G _ []); [subst s'; reflexivity|intros a []].
  - eapply (G _ [_]); [subst s'; reflexivity|]. intros a [<-|[]]; reflexivity.
  - apply (G _ []); [subst s'; reflexivity|intros a []].
Qed.

Lemma J_none log : (forall n, ~ In (EBegin n) log) -> (forall n o, ~ In (EEnd n o) log) -> J log = [].
Proof.
  intros H1 H2. destruct (J log) as [|[n|n o] l] eqn:E; [reflexivity| |]; exfalso.
  - apply (H1 n). apply J_begin. rewrite E. left; reflexivity.
  - apply (H2 n o). apply J_end. rewrite E. left; reflexivity.
Qed.

Lemma quiet_tick s s' : reachable c z s -> tick c s = Some s' -> J (s_log s') = J (s_log s).
Proof.
  intros HR E. unfold tick in E. pose proof (r_inv c z s Hwf HR) as HI.
  assert (D : J (s_log (drain_top s)) = J (s_log s)).
  { unfold drain_top. destruct (s_coros s); [|reflexivity]. cbn [emit set_pc s_log]. rewrite J_cons. apply app_nil_r. }
  assert (M : J (s_log (main_top s)) = J (s_log s)).
  { unfold main_top. destruct (s_todo s); [exact D|]. cbn [emit set_pc s_log]. rewrite J_cons. apply app_nil_r. }
  destruct (s_pc s) as [|ph| | | | | | |] eqn:Epc; try discriminate.
  - injection E as <-.
    destruct (start_spec c Hwf s HI Epc) as (_ & Ef & _ & _).
    pose proof (step_start c Hwf s HI Epc) as HI'.
    pose proof (i_pc _ _ HI) as P. unfold pc_inv in P. rewrite Epc in P. destruct P as (_ & _ & _ & _ & F & _ & El).
    rewrite El. cbn. apply J_none; intros n.
    + pose proof (k_fut _ _ _ _ (i_core _ _ HI') n) as G. rewrite Ef, F in G. cbn in G. tauto.
    + pose proof (k_fut _ _ _ _ (i_core _ _ HI') n) as G. rewrite Ef, F in G. cbn in G. apply G.
  - destruct ph; injection E as <-; assumption.
  - injection E as <-. reflexivity.
  - injection E as <-. reflexivity.
Qed.

Lemma friendly_ex : friendly c.
Proof. destruct Hex as [H1 H2]. split; [exact H1|]. intros n Hn. apply (H2 n Hn). Qed.
Lemma jobs_ex n : In n (node_ids (c_dag c)) -> node_has_job c n = true.
Proof. intros Hn. apply (proj2 Hex n Hn). Qed.

Lemma ctl_not_created s b s' : ctl c s b = Some s' -> s_pc s' <> Created.
Proof.
  unfold ctl, run_first, run_poll, dispatch, complete. intros E.
  repeat match type of E with
  | context[match ?x with _ => _ end] => destruct x eqn:?; try discriminate
  | context[if ?x then _ else _] => destruct x eqn:?; try discriminate
  end; injection E as <-; cbn; try discriminate; try congruence.
Qed.

Definition between_ticks (s : state) : Prop := exists ph, s_pc s = Suspended ph.

Lemma silent_tick s : reachable c z s -> s_pc s = Created \/ between_ticks s ->
  exists s1 ls s2, step c s LTick = Some s1 /\ forallb inner_label ls = true /\
    run_labels c s1 ls = Some s2 /\ tick_running s2 = false /\
    (between_ticks s2 \/ s_pc s2 = Finished) /\ J (s_log s2) = J (s_log s).
Proof.
  intros HR Hpc.
  assert (Hd : done s = false) by (unfold done; destruct Hpc as [->|[ph ->]]; reflexivity).
  assert (E1 : exists s1, tick c s = Some s1).
  { unfold tick. destruct Hpc as [->|[[] ->]]; eauto. }
  destruct E1 as [s1 E1].
  assert (HR1 : reachable c z s1) by (eapply (reachable_step c z s LTick); eassumption).
  assert (G : forall k p s2, run_labels c s1 (repeat LCtl p) = Some s2 -> calm s2 -> usable s2 -> s_pc s2 <> Created ->
     J (s_log s2) = J (s_log s) -> inside_tick c s1 (repeat LCtl p) ->
     4 * Nat.max 1 (c_threads c) + 3 < p + k ->
     exists p s2, run_labels c s1 (repeat LCtl p) = Some s2 /\ tick_running s2 = false /\ calm s2 /\ usable s2
       /\ s_pc s2 <> Created /\ J (s_log s2) = J (s_log s)).
  { induction k as [|k IH]; intros p s2 Er Hc Hu Hn HJ Hin Hb.
    - pose proof (tick_bounded c z s s1 (repeat LCtl p) s2 Hwf HR E1 Er Hin) as B.
      assert (moves (repeat LCtl p) = p) as M.
      { clear. unfold moves. induction p as [|p IH]; [reflexivity|]. cbn. f_equal. exact IH. }
      lia.
    - assert (HR2 : reachable c z s2) by (eapply reachable_run; eassumption).
      destruct (tick_running s2) eqn:Et; [|exists p, s2; auto 10].
      destruct (tick_never_waits c z s2 Hwf HR2 Hthr Et) as [s3 E3].
      { intros e rest E. unfold calm in Hc. rewrite E in Hc. exact Hc. }
      assert (Es : repeat LCtl (S p) = repeat LCtl p ++ [LCtl]).
      { clear. induction p as [|p IH]; [reflexivity|]. cbn in *. f_equal. exact IH. }
      apply (IH (S p) s3).
      + rewrite Es, run_labels_app, Er. cbn [run_labels]. rewrite E3. reflexivity.
      + eapply calm_ctl; eassumption.
      + eapply usable_ctl; eassumption.
      + eapply ctl_not_created; exact E3.
      + rewrite <- HJ. eapply quiet_ctl; eassumption.
      + rewrite Es. intros a b s' Eab Hb' Ea. destruct (exists_last Hb') as (b' & x & Eb). subst b.
        rewrite app_assoc in Eab. apply app_inj_tail in Eab. destruct Eab as [Eab _].
        destruct b' as [|y b']; [|apply (Hin a (y :: b')); [exact Eab|discriminate|exact Ea]].
        rewrite app_nil_r in Eab. subst a. rewrite Er in Ea. injection Ea as <-. exact Et.
      + lia. }
  destruct (G (S (4 * Nat.max 1 (c_threads c) + 3)) 0 s1) as (p & s2 & A1 & A2 & A3 & A4 & A5 & A6).
  - reflexivity.
  - apply (calm_tick c z Hwf s s1); [exact HR|intros _; apply friendly_ex|exact Hd|exact E1].
  - apply (usable_tick c z Hwf jobs_ex s s1); [exact HR|exact Hd|exact E1].
  - unfold tick in E1.
    assert (T : forall s0, s_pc (main_top s0) <> Created /\ s_pc (drain_top s0) <> Created).
    { intros s0. unfold main_top, drain_top. destruct (s_todo s0), (s_coros s0); cbn; split; discriminate. }
    destruct Hpc as [Epc|[ph Epc]]; rewrite Epc in E1.
    + injection E1 as <-. destruct (start_spec c Hwf s (r_inv c z s Hwf HR) Epc) as (R & _).
      intros Ec. inversion R as [? ? cyc L1 L2 L3|? ? n pre post L2 L1 L3 L4 L5 L6 L7|? ? n pre post L2 L1 L3 L4 L5 L6 L7 L8
                 |? ? s0 evd todo E T0]; subst; try congruence.
      match goal with H : start c s = main_top _ |- _ => rewrite H in Ec end. exact (proj1 (T s0) Ec).
    + destruct ph; injection E1 as <-; apply T.
  - apply (quiet_tick s s1 HR E1).
  - intros a b s' Eab Hb _. destruct a; [|discriminate]. destruct b; [congruence|discriminate].
  - lia.
  - exists s1, (repeat LCtl p), s2. split; [exact E1|]. split.
    { clear. induction p as [|p IH]; [reflexivity|]. exact IH. }
    split; [exact A1|]. split; [exact A2|]. split; [|exact A6].
    unfold calm in A3. unfold usable in A4. unfold tick_running in A2. unfold between_ticks.
    destruct (s_pc s2) eqn:E; try contradiction; try discriminate; eauto.
Qed.
End Silent.

(** * How far an execution has got *)
Definition before_node (e : event) : list nid := match e with EBeforeRun _ n => [n] | _ => [] end.
Definition befores (log : list event) : list nid := flat_map before_node log.
Definition progress (log : list event) : nat := List.length (befores log) + List.length (recs log).

Lemma befores_In log n : In n (befores log) <-> before_l log n.
Proof.
  unfold befores. rewrite in_flat_map. split.
  - intros [e [He H]]. destruct e; cbn in H; try contradiction. destruct H as [<-|[]]. eexists; exact He.
  - intros [er H]. eexists. split; [exact H|left; reflexivity].
Qed.
Lemma befores_nodup c log : log_ok c log -> NoDup (befores log) /\ incl (befores log) (node_ids (c_dag c)).
Proof.
  induction log as [|e log IH]; intros Hok; [split; [constructor|intros x []]|].
  destruct Hok as [[He _] Hok]. destruct (IH Hok) as [I1 I2]. unfold befores in *. cbn [flat_map].
  destruct e; cbn [before_node app]; try (split; assumption). cbn in He. destruct He as (_ & _ & Hid & Hn & _).
  split; [constructor; [rewrite befores_In; exact Hn|exact I1]|]. intros x [<-|Hx]; [exact Hid|apply I2, Hx].
Qed.
Lemma progress_bound c log : log_ok c log -> progress log <= 2 * List.length (node_ids (c_dag c)).
Proof.
  intros Hok. destruct (befores_nodup c log Hok) as [A1 A2]. destruct (recs_nodup c log Hok) as [B1 B2].
  unfold progress. pose proof (NoDup_incl_length A1 A2). pose proof (NoDup_incl_length B1 B2) as H0.
  rewrite map_length in H0. lia.
Qed.
Lemma progress_before new log er m : In (EBeforeRun er m) new -> progress log < progress (new ++ log).
Proof.
  intros H. unfold progress. destruct (recs_app new log) as [more ->]. unfold befores.
  rewrite flat_map_app, !app_length.
  assert (0 < List.length (flat_map before_node new)); [|lia].
  destruct (flat_map before_node new) eqn:E; [|cbn; lia]. exfalso.
  assert (X : In m (flat_map before_node new)) by (apply in_flat_map; eexists; split; [exact H|left; reflexivity]).
  rewrite E in X. destruct X.
Qed.
Lemma progress_record new log m : recorded_l (new ++ log) m -> ~ recorded_l log m ->
  progress log < progress (new ++ log).
Proof.
  intros (r & Hr & E) Hn. unfold progress. destruct (recs_app new log) as [more Em].
  unfold befores. rewrite flat_map_app, app_length, Em, app_length.
  rewrite Em in Hr. apply in_app_iff in Hr. destruct Hr as [Hr|Hr]; [exfalso; apply Hn; exists r; auto|].
  destruct more; [destruct Hr|cbn; lia].
Qed.

Lemma recorded_dec log n : recorded_l log n \/ ~ recorded_l log n.
Proof.
  destruct (in_dec Nat.eq_dec n (map r_node (recs log))) as [H|H].
  - left. apply in_map_iff in H. destruct H as (r & E & Hr). exists r. auto.
  - right. intros (r & Hr & E). apply H. rewrite <- E. apply in_map, Hr.
Qed.

Lemma minimal_unrecorded c log n : Acc (succ_of (c_dag c)) n -> ~ recorded_l log n ->
  exists x, clos_refl_trans nid (runs_after (c_dag c)) n x /\ ~ recorded_l log x /\ after_recorded c log x.
Proof.
  intros HA. induction HA as [n _ IH]. intros Hn.
  assert (D : (exists m, runs_after (c_dag c) n m /\ ~ recorded_l log m) \/ after_recorded c log n).
  { assert (G : forall l, (exists m, In m l /\ ~ recorded_l log m) \/ forall m, In m l -> recorded_l log m).
    { induction l as [|m l IHl]; [right; intros m []|]. destruct (recorded_dec log m) as [H|H]; [|left; exists m; split; [left; reflexivity|exact H]].
      destruct IHl as [(k & Hk & E)|G]; [left; exists k; split; [right; exact Hk|exact E]|].
      right. intros k [<-|Hk]; auto. }
    destruct (G (after_targets (c_dag c) n)) as [(m & Hm & E)|H].
    - left. exists m. split; [apply after_targets_In, Hm|exact E].
    - right. intros m Hm. apply H, after_targets_In, Hm. }
  destruct D as [(m & Hm & E)|D]; [|exists n; split; [apply rt_refl|auto]].
  destruct (IH m Hm E) as (x & H1 & H2). exists x. split; [|exact H2].
  eapply rt_trans; [apply rt_step; exact Hm|exact H1].
Qed.

Section Drive.
Variables (c : config) (z : Z).
Hypothesis Hwf : wf_dag (c_dag c).
Hypothesis Hra : requires_after (c_dag c).
Hypothesis Hthr : 0 < c_threads c.
Hypothesis Hex : executable c.

Lemma between_act s : reachable c z s -> between_ticks s ->
  Act c (s_todo s) (s_ns s) (s_used s) (live s) (s_fut s) (s_erec s) (s_log s).
Proof.
  intros HR [ph E]. pose proof (i_pc _ _ (r_inv c z s Hwf HR)) as P. unfold pc_inv in P. rewrite E in P. apply P.
Qed.

(** between ticks, a task that is neither launched nor recorded was not begun *)
Lemma not_before s n : reachable c z s -> between_ticks s -> In n (node_ids (c_dag c)) ->
  ~ In (ELaunch n) (s_log s) -> ~ recorded_l (s_log s) n -> ~ before_l (s_log s) n.
Proof.
  intros HR Hb Hn Hl Hr. pose proof (between_act s HR Hb) as A.
  apply (act_where c _ _ _ _ _ _ _ A) in Hn. destruct Hn as [Hn|[Hn|Hn]].
  - apply (a_idle _ _ _ _ _ _ _ _ A n). left; exact Hn.
  - apply act_lv_cases in Hn. destruct Hn as [Hn|[rec Hn]]; [apply (a_idle _ _ _ _ _ _ _ _ A n); right; exact Hn|].
    exfalso. apply Hl. pose proof (a_wait _ _ _ _ _ _ _ _ A n rec Hn) as W.
    pose proof (k_fut _ _ _ _ (i_core _ _ (r_inv c z s Hwf HR)) n) as G.
    pose proof (w_fut _ _ _ _ _ _ W) as F. destruct (s_fut s n); cbn in G; [congruence|tauto..].
  - exfalso. apply Hr. apply (act_recorded c _ _ _ _ _ _ _ A). exact Hn.
Qed.

(** A call of tick() gets the execution further, if a result is to be collected or a task
    could run and a thread is free. *)
Lemma tick_progress s : reachable c z s -> between_ticks s ->
  (exists m o, In (EEnd m o) (s_log s) /\ ~ recorded_l (s_log s) m) \/
  ((exists x, could_run c (trace s) x) /\
   forall busy, NoDup busy -> (forall h, In h busy -> In (ELaunch h) (s_log s) /\ ~ recorded_l (s_log s) h) ->
     List.length busy < c_threads c) ->
  exists s2, reachable c z s2 /\ J (s_log s2) = J (s_log s) /\
    ((between_ticks s2 /\ progress (s_log s) < progress (s_log s2)) \/ s_pc s2 = Finished).
Proof.
  intros HR Hb H. destruct (silent_tick c z Hwf Hthr Hex s HR (or_intror Hb)) as (s1 & ls & s2 & E1 & E2 & E3 & E4 & E5 & E6).
  assert (HR2 : reachable c z s2) by (eapply (reachable_run c z s1); [eapply (reachable_step c z s LTick); eassumption|exact E3]).
  exists s2. split; [exact HR2|]. split; [exact E6|]. destruct E5 as [E5|E5]; [left|right; exact E5].
  split; [exact E5|].
  assert (X : exists new, s_log s2 = new ++ s_log s).
  { apply (run_log c Hwf (LTick :: ls) s s2 (r_inv c z s Hwf HR)). cbn [run_labels]. rewrite E1. exact E3. }
  destruct X as [new X].
  destruct H as [(m & o & Hm & Hr)|[[x Hx] Hbusy]].
  - rewrite X. apply (progress_record new _ m); [|exact Hr]. rewrite <- X.
    assert (G : recorded (trace s2) m).
    { eapply (tick_collects c z s s1 ls s2 m o Hwf HR); [|apply trace_in; exact Hm|exact E1|exact E2|exact E3|exact E4|].
      - unfold done. destruct Hb as [ph ->]. reflexivity.
      - intros e. unfold result. destruct E5 as [ph ->]. discriminate. }
    apply recorded_rev in G. unfold trace in G. rewrite rev_involutive in G. exact G.
  - destruct Hb as [ph Hb].
    destruct (work_conserving c z s ph x s1 ls s2 Hwf HR Hb Hx E1 E2 E3 E4) as [[_ (busy & B1 & B2 & B3)]|(er & m & new' & Y1 & Y2)].
    + unfold done. destruct E5 as [ph' ->]. reflexivity.
    + exfalso. assert (List.length busy < c_threads c); [|lia]. apply Hbusy; [exact B1|]. intros h Hh.
      destruct (B3 h Hh) as [G1 G2]. split; [apply trace_in, G1|]. intros G. apply G2. apply recorded_rev.
      unfold trace. rewrite rev_involutive. exact G.
    + rewrite X. apply (progress_before new _ er m). unfold extends, trace in Y1.
      rewrite X, rev_app_distr in Y1. apply app_inv_head in Y1. apply in_rev. rewrite Y1. exact Y2.
Qed.

Lemma ids_of_after n m : clos_refl_trans nid (runs_after (c_dag c)) n m -> In n (node_ids (c_dag c)) ->
  In m (node_ids (c_dag c)).
Proof.
  intros H. induction H as [n m H|n|n k m H1 IH1 H2 IH2]; auto. intros _. apply (proj2 Hwf _ H).
Qed.

Lemma to_trace_rec s n : recorded (trace s) n <-> recorded_l (s_log s) n.
Proof. rewrite <- recorded_rev. unfold trace. rewrite rev_involutive. tauto. Qed.

(** A task whose turn it is has no record. *)
Lemma turn_unrecorded log n : log_ok c log -> turn c (J log) n -> ~ recorded_l log n.
Proof.
  intros Hok (_ & Hnb & Hi & Hf & _) Hr. destruct (recorded_settled c log n Hok Hr) as [[o Ho]|[H|(p & Hq & Hp)]].
  - apply Hnb, J_begin. eapply (end_begin c); [exact Hok|]. apply J_end. exact Ho.
  - exact (H Hi).
  - exact (Hf p Hq Hp).
Qed.

(** A launched task has no failed requirement. *)
Lemma launched_fine log x p : log_ok c log -> In (ELaunch x) log -> requires (c_dag c) x p -> ~ failed_in c (J log) p.
Proof.
  intros Hok Hl Hq Hf. destruct (log_in c log _ Hok Hl) as (l1 & l2 & -> & (He & _) & Hok2). cbn in He.
  destruct He as (_ & _ & _ & Ha & Hi & Hid & Hd). destruct (Ha p (Hra _ _ Hq)) as (r & Hr & E).
  assert (Hb : is_bad (r_status r) = true).
  { eapply (failed_bad c Hra); [exact Hok|exact Hf| |exact E]. apply recs_In in Hr. destruct Hr as (a & b & Hr).
    apply recs_In. exists a, b. apply in_app_iff. right; right; exact Hr. }
  rewrite (Hd p r Hq Hr E) in Hb. discriminate.
Qed.
Lemma launched_inval log x : log_ok c log -> In (ELaunch x) log -> Invalidated c x /\ In x (node_ids (c_dag c)).
Proof.
  intros Hok Hl. destruct (log_in c log _ Hok Hl) as (l1 & l2 & -> & (He & _) & Hok2). cbn in He. tauto.
Qed.

Lemma some_ended_unrecorded s : reachable c z s ->
  (exists m o, In (EEnd m o) (s_log s) /\ ~ recorded_l (s_log s) m) \/
  (forall m o, In (EEnd m o) (s_log s) -> recorded_l (s_log s) m).
Proof.
  intros _. generalize (s_log s) at 2 4 as log. intros log.
  induction (s_log s) as [|x l IHl]; [right; intros m o []|].
  destruct IHl as [(m & o & H1 & H2)|H]; [left; exists m, o; split; [right; exact H1|exact H2]|].
  destruct x; try (right; intros k o' [X|X]; [discriminate|eapply H; exact X]).
  destruct (recorded_dec log n) as [D|D].
  - right. intros k o' [X|X]; [injection X as <- <-; exact D|eapply H; exact X].
  - left. exists n, o. split; [left; reflexivity|exact D].
Qed.

Definition restful (s : state) : Prop := s_pc s = Created \/ between_ticks s.

Lemma finished_contra s h n : reachable c z s -> J (s_log s) = h -> turn c h n -> s_pc s <> Finished.
Proof.
  intros HR HJ Ht E. subst h. pose proof (r_log c z s Hwf HR) as Hok.
  apply (turn_unrecorded (s_log s) n Hok Ht). apply to_trace_rec.
  apply (finished_recorded c z s Hwf HR (s_erec s)); [unfold result; rewrite E; reflexivity|apply Ht].
Qed.

Lemma bring_up h n : plenty c -> turn c h n -> forall k s, reachable c z s -> between_ticks s -> J (s_log s) = h ->
  2 * List.length (node_ids (c_dag c)) < progress (s_log s) + k ->
  exists s', reachable c z s' /\ between_ticks s' /\ J (s_log s') = h /\ In (ELaunch n) (s_log s').
Proof.
  intros [Hres Hmany] Ht. induction k as [|k IH]; intros s HR Hb HJ Hk.
  - pose proof (progress_bound c _ (r_log c z s Hwf HR)). lia.
  - pose proof (r_log c z s Hwf HR) as Hok.
    assert (Dl : In (ELaunch n) (s_log s) \/ ~ In (ELaunch n) (s_log s)).
    { pose proof (k_fut _ _ _ _ (i_core _ _ (r_inv c z s Hwf HR)) n) as G. destruct (s_fut s n); cbn in G; tauto. }
    destruct Dl as [Dl|Dl]; [exists s; auto|].
    assert (Hnr : ~ recorded_l (s_log s) n) by (apply turn_unrecorded; [exact Hok|rewrite HJ; exact Ht]).
    destruct (tick_progress s HR Hb) as (s2 & HR2 & HJ2 & [[Hb2 Hp]|Hfin]).
    + destruct (some_ended_unrecorded s HR) as [H|Hall]; [left; exact H|right].
      assert (Hn : In n (node_ids (c_dag c))) by apply Ht.
      split.
      * pose proof (between_act s HR Hb) as A.
        destruct (minimal_unrecorded c (s_log s) n (a_acc _ _ _ _ _ _ _ _ A n Hn) Hnr) as (x & X1 & X2 & X3).
        assert (Hx : In x (node_ids (c_dag c))) by (eapply ids_of_after; eassumption).
        assert (Xl : ~ In (ELaunch x) (s_log s)).
        { intros Xl. assert (Hs : x = n \/ settled c h x).
          { apply clos_rt_rt1n in X1. inversion X1 as [|? ? Y1 Y2]; subst; [left; reflexivity|right].
            apply Ht. apply clos_rt1n_rt in Y2. clear -Y1 Y2. apply clos_rt_rtn1 in Y2.
            induction Y2 as [|? ? H _ IH]; [apply t_step; exact Y1|eapply t_trans; [exact IH|apply t_step; exact H]]. }
          destruct Hs as [->|[[o Ho]|[Ho|(p & Hq & Hp)]]]; [exact (Dl Xl)| | |].
          - apply X2. apply (Hall x o). apply J_end. rewrite HJ. exact Ho.
          - apply Ho. apply (launched_inval _ _ Hok Xl).
          - apply (launched_fine _ x p Hok Xl Hq). rewrite HJ. exact Hp. }
        exists x. split; [exact Hx|]. split.
        { intros er He. apply (not_before s x HR Hb Hx Xl X2). exists er. apply trace_in. exact He. }
        split; [intros m Hm; apply to_trace_rec, X3, Hm|].
        intros g r Hg _ Hr. refine (Hres x g Hx _ _ r Hr).
        { apply (launched_inval (s_log s) g Hok). apply trace_in, Hg. }
        intros E; subst g; apply Xl, trace_in, Hg.
      * intros busy B1 B2. assert (Hi : incl (n :: busy) (node_ids (c_dag c))).
        { intros y [<-|Hy]; [exact Hn|]. apply (launched_inval (s_log s) y Hok). apply B2, Hy. }
        assert (Hnd : NoDup (n :: busy)) by (constructor; [intros Hy; apply Dl; apply B2, Hy|exact B1]).
        pose proof (NoDup_incl_length Hnd Hi). cbn in H. lia.
    + apply (IH s2); [exact HR2|exact Hb2|congruence|lia].
    + exfalso. apply (finished_contra s2 h n); [exact HR2|congruence|exact Ht|exact Hfin].
Qed.

Lemma complete_run : plenty c -> forall h, machine c h -> exists s, reachable c z s /\ restful s /\ J (s_log s) = h.
Proof.
  intros Hpl h Hm. induction Hm as [|h n Hm IH _ Ht _ _|h n o Hm IH Hb He].
  - exists (init z). split; [exists []; reflexivity|]. split; [left; reflexivity|reflexivity].
  - destruct IH as (s & HR & Hrest & HJ).
    assert (X : exists s', reachable c z s' /\ between_ticks s' /\ J (s_log s') = h).
    { destruct Hrest as [Hc|Hb]; [|exists s; auto].
      destruct (silent_tick c z Hwf Hthr Hex s HR (or_introl Hc)) as (s1 & ls & s2 & E1 & E2 & E3 & E4 & E5 & E6).
      assert (HR2 : reachable c z s2) by (eapply (reachable_run c z s1); [eapply (reachable_step c z s LTick); eassumption|exact E3]).
      exists s2. split; [exact HR2|]. split; [|congruence]. destruct E5 as [E5|E5]; [exact E5|exfalso].
      apply (finished_contra s2 h n HR2); [congruence|exact Ht|exact E5]. }
    destruct X as (s0 & HR0 & Hb0 & HJ0).
    destruct (bring_up h n Hpl Ht (S (2 * List.length (node_ids (c_dag c)))) s0 HR0 Hb0 HJ0) as (s' & HR' & Hb' & HJ' & Hl); [lia|].
    pose proof (r_inv c z s' Hwf HR') as HI.
    assert (F : s_fut s' n = FPending).
    { pose proof (k_fut _ _ _ _ (i_core _ _ HI) n) as G. pose proof (k_kind _ _ _ _ (i_core _ _ HI) n) as K.
      unfold deferred in K. replace (c_threads c =? 0) with false in K by (symmetry; apply Nat.eqb_neq; lia).
      assert (Nb : ~ In (EBegin n) (s_log s')) by (intros Y; apply (proj1 (proj2 Ht)); rewrite <- HJ'; apply J_begin, Y).
      destruct (s_fut s' n); cbn in G; try tauto; try reflexivity. }
    eexists. split; [eapply (reachable_step c z s' (LBegin n)); [exact HR'|cbn; rewrite F; reflexivity]|].
    split; [right; exact Hb'|]. cbn [emit set_fut s_log]. rewrite J_cons, HJ'. reflexivity.
  - destruct IH as (s & HR & Hrest & HJ). pose proof (r_inv c z s Hwf HR) as HI.
    assert (F : s_fut s n = FRunning).
    { pose proof (k_fut _ _ _ _ (i_core _ _ HI) n) as G. rewrite <- HJ in Hb. apply J_begin in Hb.
      destruct (s_fut s n) as [| | | |o'] eqn:E; cbn in G; try tauto. exfalso. apply (He o'). rewrite <- HJ. apply J_end. tauto. }
    eexists. split; [eapply (reachable_step c z s (LEnd n o)); [exact HR|cbn; rewrite F; reflexivity]|].
    split; [exact Hrest|]. cbn [emit set_fut s_log]. rewrite J_cons, HJ. reflexivity.
Qed.
End Drive.

Lemma machine_complete : forall c z h,
  wf_dag (c_dag c) -> requires_after (c_dag c) -> plenty c -> machine c h ->
  exists s, reachable c z s /\ jobs (trace s) = h.
Proof.
  intros c z h Hwf Hra Hpl Hm.
  destruct h as [|j h].
  - exists (init z). split; [exists []; reflexivity|reflexivity].
  - assert (Hex : executable c /\ exists n, In n (node_ids (c_dag c))).
    { clear -Hm. remember (j :: h) as h0 eqn:E. assert (h0 <> []) by (subst; discriminate). clear E j h.
      induction Hm as [|h n Hm IH He Ht _ _|h n o Hm IH Hb _]; [congruence| |].
      - split; [exact He|]. exists n. apply Ht.
      - apply IH. intros ->. destruct Hb. }
    destruct Hex as [Hex [n Hn]].
    assert (Hthr : 0 < c_threads c).
    { destruct Hpl as [_ H]. destruct (node_ids (c_dag c)); [destruct Hn|cbn in H; lia]. }
    destruct (complete_run c z Hwf Hra Hthr Hex Hpl (j :: h) Hm) as (s & HR & _ & HJ).
    exists s. split; [exact HR|exact HJ].
Qed.

(** * Tasks that nothing keeps apart *)
Section Together.
Variables (c : config) (z : Z) (team : list nid).
Hypothesis Hwf : wf_dag (c_dag c).
Hypothesis Hthr : 0 < c_threads c.
Hypothesis Hex : executable c.
Hypothesis Hnd : NoDup team.
Hypothesis Hids : incl team (node_ids (c_dag c)).
Hypothesis Hinv : forall n, In n team -> Invalidated c n.
Hypothesis Hlen : List.length team <= c_threads c.
Hypothesis Hfree : forall a b, In a team -> In b team -> a <> b -> ~ held_up_by c a b.

Record calmly (s : state) : Prop := {
  y_reach : reachable c z s;
  y_rest : between_ticks s;
  y_team : forall a, In a team -> ~ In (EBegin a) (s_log s);
  y_good : forall m o, In (EEnd m o) (s_log s) -> job_code o = 0%Z }.

Definition fine_end : job_outcome := JRet (RunResult 0 [] "").
Definition busy_fut (f : fstate) : bool := match f with FPending | FRunning => true | _ => false end.

Lemma progress_other e log : is_after e = false -> before_node e = [] -> progress (e :: log) = progress log.
Proof. intros H1 H2. unfold progress, befores. cbn [flat_map]. rewrite H2, recs_other by exact H1. reflexivity. Qed.

Lemma finish_one s n : calmly s -> ~ In n team -> exists s', calmly s' /\ progress (s_log s') = progress (s_log s) /\
  busy_fut (s_fut s' n) = false /\ forall m, busy_fut (s_fut s m) = false -> busy_fut (s_fut s' m) = false.
Proof.
  intros Hc Hn.
  assert (End : forall s, calmly s -> s_fut s n = FRunning -> exists s', calmly s' /\
    progress (s_log s') = progress (s_log s) /\ busy_fut (s_fut s' n) = false /\
    forall m, busy_fut (s_fut s m) = false -> busy_fut (s_fut s' m) = false).
  { clear s Hc. intros s Hc F. exists (set_fut (emit s (EEnd n fine_end)) n (FReady fine_end)).
    split; [|split; [cbn [emit set_fut s_log]; apply progress_other; reflexivity|]].
    - split.
      + eapply (reachable_step c z s (LEnd n fine_end)); [apply (y_reach s Hc)|]. cbn. rewrite F. reflexivity.
      + apply (y_rest s Hc).
      + intros a Ha [X|X]; [discriminate|]. exact (y_team s Hc a Ha X).
      + intros m o [X|X]; [injection X as <- <-; reflexivity|]. exact (y_good s Hc m o X).
    - cbn. unfold upd. rewrite Nat.eqb_refl. split; [reflexivity|]. intros m Hm. destruct (_ =? _); [reflexivity|exact Hm]. }
  destruct (s_fut s n) eqn:F; try solve [exists s; rewrite F; split; [exact Hc|auto]].
  - set (s1 := set_fut (emit s (EBegin n)) n FRunning).
    assert (H1 : calmly s1).
    { split.
      + eapply (reachable_step c z s (LBegin n)); [apply (y_reach s Hc)|]. cbn. rewrite F. reflexivity.
      + apply (y_rest s Hc).
      + intros a Ha [X|X]; [injection X as <-; exact (Hn Ha)|]. exact (y_team s Hc a Ha X).
      + intros m o [X|X]; [discriminate|]. exact (y_good s Hc m o X). }
    destruct (End s1 H1) as (s' & A1 & A2 & A3 & A4); [cbn; unfold upd; rewrite Nat.eqb_refl; reflexivity|].
    exists s'. split; [exact A1|]. split; [rewrite A2; cbn [s1 emit set_fut s_log]; apply progress_other; reflexivity|]. split; [exact A3|].
    intros m Hm. destruct (Nat.eq_dec m n) as [->|Hne]; [exact A3|]. apply A4. cbn. unfold upd.
    destruct (_ =? _) eqn:E; [apply Nat.eqb_eq in E; congruence|exact Hm].
  - apply End; assumption.
Qed.

Lemma finish_all : forall l s, calmly s -> (forall n, In n l -> ~ In n team) -> exists s', calmly s' /\
  progress (s_log s') = progress (s_log s) /\ (forall n, In n l -> busy_fut (s_fut s' n) = false) /\
  forall m, busy_fut (s_fut s m) = false -> busy_fut (s_fut s' m) = false.
Proof.
  induction l as [|n l IH]; intros s Hc Hl; [exists s; split; [exact Hc|]; split; [reflexivity|]; split; [intros n []|auto]|].
  destruct (finish_one s n Hc (Hl n (or_introl eq_refl))) as (s1 & A1 & A2 & A3 & A4).
  destruct (IH s1 A1 (fun m Hm => Hl m (or_intror Hm))) as (s2 & B1 & B2 & B3 & B4).
  exists s2. split; [exact B1|]. split; [congruence|]. split; [|auto]. intros m [<-|Hm]; auto.
Qed.

(** nobody fails *)
Lemma none_failed s n : calmly s -> ~ failed_in c (J (s_log s)) n.
Proof. intros Hc H. induction H as [n o Ho Hb|n p _ _ IH]; [|exact IH]. apply Hb. apply (y_good s Hc n). apply J_end, Ho. Qed.

Lemma team_unrecorded s a : calmly s -> In a team -> ~ recorded_l (s_log s) a.
Proof.
  intros Hc Ha Hr. pose proof (r_log c z s Hwf (y_reach s Hc)) as Hok.
  destruct (recorded_settled c (s_log s) a Hok Hr) as [[o Ho]|[H|(p & _ & Hp)]].
  - apply (y_team s Hc a Ha). eapply (end_begin c); [exact Hok|]. apply J_end. exact Ho.
  - exact (H (Hinv a Ha)).
  - exact (none_failed s p Hc Hp).
Qed.

Lemma J_calmly s s' : calmly s -> reachable c z s' -> between_ticks s' -> J (s_log s') = J (s_log s) -> calmly s'.
Proof.
  intros Hc H1 H2 H3. split; [exact H1|exact H2| |].
  - intros a Ha X. apply (y_team s Hc a Ha). apply J_begin. rewrite <- H3. apply J_begin, X.
  - intros m o X. apply (y_good s Hc m o). apply J_end. rewrite <- H3. apply J_end, X.
Qed.

Lemma all_launched_or s : (forall a, In a team -> In (ELaunch a) (s_log s)) \/ calmly s -> 
  (forall a, In a team -> In (ELaunch a) (s_log s)) \/ (calmly s /\ exists a, In a team /\ ~ In (ELaunch a) (s_log s)).
Proof.
  intros [H|Hc]; [auto|].
  assert (G : forall l, (forall a, In a l -> In (ELaunch a) (s_log s)) \/ exists a, In a l /\ ~ In (ELaunch a) (s_log s)).
  { induction l as [|a l IH]; [left; intros a []|].
    assert (D : In (ELaunch a) (s_log s) \/ ~ In (ELaunch a) (s_log s)).
    { pose proof (k_fut _ _ _ _ (i_core _ _ (r_inv c z s Hwf (y_reach s Hc))) a) as G. destruct (s_fut s a); cbn in G; tauto. }
    destruct D as [D|D]; [|right; exists a; split; [left; reflexivity|exact D]].
    destruct IH as [IH|(b & H1 & H2)]; [|right; exists b; split; [right; exact H1|exact H2]].
    left. intros b [<-|Hb]; auto. }
  destruct (G team) as [H|H]; auto.
Qed.

Lemma assemble : forall k s, calmly s -> 2 * List.length (node_ids (c_dag c)) < progress (s_log s) + k ->
  exists s', calmly s' /\ forall a, In a team -> In (ELaunch a) (s_log s').
Proof.
  induction k as [|k IH]; intros s Hc0 Hk.
  - pose proof (progress_bound c _ (r_log c z s Hwf (y_reach s Hc0))). lia.
  - destruct (finish_all (filter (fun n => negb (existsb (Nat.eqb n) team)) (node_ids (c_dag c))) s Hc0) as (s1 & Hc & Hp & Hf & _).
    { intros n Hn Ht. apply filter_In in Hn. destruct Hn as [_ Hn]. apply negb_true_iff in Hn.
      assert (X : existsb (Nat.eqb n) team = true) by (apply existsb_exists; exists n; split; [exact Ht|apply Nat.eqb_refl]).
      congruence. }
    assert (Hquiet : forall n, In n (node_ids (c_dag c)) -> ~ In n team -> busy_fut (s_fut s1 n) = false).
    { intros n Hn Ht. apply Hf. apply filter_In. split; [exact Hn|]. apply negb_true_iff.
      destruct (existsb (Nat.eqb n) team) eqn:E; [|reflexivity]. apply existsb_exists in E. destruct E as (m & Hm & E).
      apply Nat.eqb_eq in E. subst m. contradiction. }
    clear Hf. rewrite <- Hp in Hk. clear s Hc0 Hp. rename s1 into s.
    destruct (all_launched_or s (or_intror Hc)) as [Hl|[_ (a & Ha & Dl)]]; [exists s; auto|].
    pose proof (y_reach s Hc) as HR. pose proof (y_rest s Hc) as Hb.
    pose proof (r_log c z s Hwf HR) as Hok.
    pose proof (team_unrecorded s a Hc Ha) as Hnr.
    destruct (tick_progress c z Hwf Hthr Hex s HR Hb) as (s2 & HR2 & HJ2 & [[Hb2 Hp]|Hfin]).
    + destruct (some_ended_unrecorded c z s HR) as [H|Hall]; [left; exact H|right].
      assert (Held : forall h, In (ELaunch h) (s_log s) -> ~ recorded_l (s_log s) h -> In h team).
      { intros h Hl Hr. destruct (in_dec Nat.eq_dec h team) as [Ht|Ht]; [exact Ht|exfalso].
        assert (Hid : In h (node_ids (c_dag c))) by (apply (launched_inval c (s_log s) h Hok Hl)).
        pose proof (Hquiet h Hid Ht) as Q. pose proof (r_inv c z s Hwf HR) as HI.
        pose proof (k_fut _ _ _ _ (i_core _ _ HI) h) as G. pose proof (k_kind _ _ _ _ (i_core _ _ HI) h) as K.
        unfold deferred in K. replace (c_threads c =? 0) with false in K by (symmetry; apply Nat.eqb_neq; lia).
        destruct (s_fut s h) as [| | | |o]; cbn in Q, G; try discriminate; try tauto.
        apply Hr. apply (Hall h o). tauto. }
      split.
      * pose proof (between_act c z Hwf s HR Hb) as A.
        destruct (minimal_unrecorded c (s_log s) a (a_acc _ _ _ _ _ _ _ _ A a (Hids a Ha)) Hnr) as (x & X1 & X2 & X3).
        assert (Hx : In x (node_ids (c_dag c))) by (eapply ids_of_after; [exact Hwf|exact X1|apply Hids, Ha]).
        assert (Xl : ~ In (ELaunch x) (s_log s)).
        { intros Xl. pose proof (Held x Xl X2) as Xt. assert (Hne : a <> x) by (intros ->; exact (Dl Xl)).
          apply (Hfree a x Ha Xt Hne). apply clos_rt_rtn1 in X1. inversion X1 as [|y ? Y1 Y2]; subst; [congruence|].
          exists y. split; [apply clos_rtn1_rt; exact Y2|left; exact Y1]. }
        exists x. split; [exact Hx|]. split.
        { intros er He. apply (not_before c z Hwf s x HR Hb Hx Xl X2). exists er. apply trace_in. exact He. }
        split; [intros m Hm; apply to_trace_rec, X3, Hm|].
        intros g r Hg Hgr Hr Hr'. apply trace_in in Hg. rewrite to_trace_rec in Hgr. pose proof (Held g Hg Hgr) as Gt.
        assert (Hne : a <> g) by (intros ->; exact (Dl Hg)).
        apply (Hfree a g Ha Gt Hne). exists x. split; [exact X1|right]. split; [intros ->; exact (Xl Hg)|exists r; auto].
      * intros busy B1 B2. assert (Hi : incl (a :: busy) team).
        { intros y [<-|Hy]; [exact Ha|]. destruct (B2 y Hy). apply Held; assumption. }
        assert (Hd : NoDup (a :: busy)) by (constructor; [intros Hy; apply Dl; apply B2, Hy|exact B1]).
        pose proof (NoDup_incl_length Hd Hi). cbn in H. lia.
    + apply (IH s2); [eapply J_calmly; eassumption|lia].
    + exfalso. pose proof (r_log c z s2 Hwf HR2) as Hok2.
      assert (Hr : recorded_l (s_log s2) a).
      { apply to_trace_rec. apply (finished_recorded c z s2 Hwf HR2 (s_erec s2)); [unfold result; rewrite Hfin; reflexivity|apply Hids, Ha]. }
      destruct (recorded_settled c (s_log s2) a Hok2 Hr) as [[o Ho]|[H|(p & _ & Hp)]].
      * apply (y_team s Hc a Ha). eapply (end_begin c); [exact Hok|]. apply J_end. rewrite <- HJ2. exact Ho.
      * exact (H (Hinv a Ha)).
      * rewrite HJ2 in Hp. exact (none_failed s p Hc Hp).
Qed.

Lemma begin_each : forall l s, reachable c z s -> NoDup l -> (forall a, In a l -> s_fut s a = FPending) ->
  exists s', reachable c z s' /\ trace s' = trace s ++ map EBegin l /\
    (forall a, In a l -> s_fut s' a = FRunning) /\ (forall a, ~ In a l -> s_fut s' a = s_fut s a).
Proof.
  induction l as [|a l IH]; intros s HR Hn Hf.
  - exists s. rewrite app_nil_r. split; [exact HR|]. split; [reflexivity|]. split; [intros a []|reflexivity].
  - inversion Hn as [|? ? Hna Hn']; subst.
    destruct (IH (set_fut (emit s (EBegin a)) a FRunning)) as (s' & A1 & A2 & A3 & A4).
    + eapply (reachable_step c z s (LBegin a)); [exact HR|]. cbn. rewrite (Hf a (or_introl eq_refl)). reflexivity.
    + exact Hn'.
    + intros b Hb. cbn. unfold upd. destruct (_ =? _) eqn:E; [apply Nat.eqb_eq in E; subst; contradiction|]. apply Hf. right; exact Hb.
    + exists s'. split; [exact A1|]. split; [rewrite A2; unfold trace; cbn; rewrite <- app_assoc; reflexivity|]. split.
      * intros b [<-|Hb]; [|apply A3, Hb]. rewrite A4 by exact Hna. cbn. unfold upd. rewrite Nat.eqb_refl. reflexivity.
      * intros b Hb. rewrite A4 by (intros X; apply Hb; right; exact X). cbn. unfold upd.
        destruct (_ =? _) eqn:E; [apply Nat.eqb_eq in E; subst; exfalso; apply Hb; left; reflexivity|reflexivity].
Qed.

Lemma end_each (oc : nid -> job_outcome) : forall l s, reachable c z s -> NoDup l -> (forall a, In a l -> s_fut s a = FRunning) ->
  exists s', reachable c z s' /\ trace s' = trace s ++ map (fun a => EEnd a (oc a)) l.
Proof.
  induction l as [|a l IH]; intros s HR Hn Hf.
  - exists s. rewrite app_nil_r. auto.
  - inversion Hn as [|? ? Hna Hn']; subst.
    destruct (IH (set_fut (emit s (EEnd a (oc a))) a (FReady (oc a)))) as (s' & A1 & A2).
    + eapply (reachable_step c z s (LEnd a (oc a))); [exact HR|]. cbn. rewrite (Hf a (or_introl eq_refl)). reflexivity.
    + exact Hn'.
    + intros b Hb. cbn. unfold upd. destruct (_ =? _) eqn:E; [apply Nat.eqb_eq in E; subst; contradiction|]. apply Hf. right; exact Hb.
    + exists s'. split; [exact A1|]. rewrite A2; unfold trace; cbn; rewrite <- app_assoc; reflexivity.
Qed.

Lemma team_pending : exists s, reachable c z s /\ forall a, In a team -> s_fut s a = FPending.
Proof.
  destruct team as [|a0 t] eqn:Et; [exists (init z); split; [exists []; reflexivity|intros a []]|rewrite <- Et in *].
  assert (Ha0 : In a0 team) by (rewrite Et; left; reflexivity).
  assert (HR0 : reachable c z (init z)) by (exists []; reflexivity).
  destruct (silent_tick c z Hwf Hthr Hex (init z) HR0 (or_introl eq_refl)) as (s1 & ls & s2 & E1 & E2 & E3 & E4 & E5 & E6).
  assert (HR2 : reachable c z s2) by (eapply (reachable_run c z s1); [eapply (reachable_step c z (init z) LTick); eassumption|exact E3]).
  change (J (s_log (init z))) with (@nil job_step) in E6.
  assert (N : forall e, job_part e <> [] -> ~ In e (s_log s2)).
  { intros e He Hin. destruct e; cbn in He; try congruence.
    - apply J_begin in Hin. rewrite E6 in Hin. exact Hin.
    - apply J_end in Hin. rewrite E6 in Hin. exact Hin. }
  destruct E5 as [E5|E5].
  - assert (Hc : calmly s2).
    { split; [exact HR2|exact E5| |].
      - intros a _. apply N. discriminate.
      - intros m o Hin. destruct (N (EEnd m o)); [discriminate|exact Hin]. }
    destruct (assemble (S (2 * List.length (node_ids (c_dag c)))) s2 Hc) as (s & Hs & Hl); [lia|].
    exists s. split; [apply (y_reach s Hs)|]. intros a Ha. pose proof (r_inv c z s Hwf (y_reach s Hs)) as HI.
    pose proof (k_fut _ _ _ _ (i_core _ _ HI) a) as G. pose proof (k_kind _ _ _ _ (i_core _ _ HI) a) as K.
    unfold deferred in K. replace (c_threads c =? 0) with false in K by (symmetry; apply Nat.eqb_neq; lia).
    specialize (Hl a Ha). pose proof (y_team s Hs a Ha) as Nb.
    destruct (s_fut s a); cbn in G; try tauto; try reflexivity.
  - exfalso. assert (Hr : recorded_l (s_log s2) a0).
    { apply to_trace_rec. apply (finished_recorded c z s2 Hwf HR2 (s_erec s2)); [unfold result; rewrite E5; reflexivity|apply Hids, Ha0]. }
    destruct (recorded_settled c (s_log s2) a0 (r_log c z s2 Hwf HR2) Hr) as [[o Ho]|[H|(p & _ & Hp)]].
    + rewrite E6 in Ho. exact Ho.
    + exact (H (Hinv a0 Ha0)).
    + rewrite E6 in Hp. clear -Hp. induction Hp as [n o H _|]; [exact H|assumption].
Qed.
End Together.

Lemma all_at_once : forall c z team order (oc : nid -> job_outcome),
  wf_dag (c_dag c) -> executable c ->
  NoDup team -> incl team (node_ids (c_dag c)) -> (forall n, In n team -> Invalidated c n) ->
  List.length team <= c_threads c ->
  (forall a b, In a team -> In b team -> a <> b -> ~ held_up_by c a b) ->
  Permutation team order ->
  exists s pre, reachable c z s /\
    trace s = pre ++ map EBegin team ++ map (fun n => EEnd n (oc n)) order.
Proof.
  intros c z team order oc Hwf Hex Hnd Hids Hinv Hlen Hfree HP.
  destruct team as [|a0 t] eqn:Et.
  - apply Permutation_nil in HP. subst order. exists (init z), []. split; [exists []; reflexivity|reflexivity].
  - rewrite <- Et in *. assert (Hthr : 0 < c_threads c) by (rewrite Et in Hlen; cbn in Hlen; lia).
    destruct (team_pending c z team Hwf Hthr Hex Hnd Hids Hinv Hlen Hfree) as (s & HR & Hp).
    destruct (begin_each c z team s HR Hnd Hp) as (s1 & HR1 & T1 & F1 & _).
    destruct (end_each c z oc order s1 HR1) as (s2 & HR2 & T2).
    + eapply Permutation_NoDup; eassumption.
    + intros a Ha. apply F1. eapply Permutation_in; [apply Permutation_sym; exact HP|exact Ha].
    + exists s2, (trace s). split; [exact HR2|]. rewrite T2, T1, app_assoc. reflexivity.
Qed.
