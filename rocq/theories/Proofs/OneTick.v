(** What one call of tick() does (C72). *)
From Coq Require Import Lia String Permutation.
From Verif Require Import Model.Common Model.Records Model.Jobs Model.TaskSet Model.Dag
     Model.Sched Model.Exec Spec.Graph Spec.Trace
     Proofs.Sets Proofs.SchedFacts Proofs.InvalFacts Proofs.TraceFacts Proofs.ExecInv
     Proofs.ExecStep Proofs.ExecCtl Proofs.LogFacts Proofs.ExecProps Proofs.ExecProps2
     Proofs.StepCases Proofs.ExecProps3 Proofs.Ticks.
Open Scope nat_scope.
Open Scope list_scope.

(** * The tasks started in a tick were chosen before it *)

(** Every before_run is either one of [l0] or for a task of [F], and no task outside [F]
    is going to be started in this pass. *)
Definition chosen (F : nid -> Prop) (l0 : list event) (s : state) : Prop :=
  (forall er m, In (EBeforeRun er m) (s_log s) -> In (EBeforeRun er m) l0 \/ F m) /\
  (forall ph kept rest sl m, s_pc s = Clean ph kept rest -> In sl rest -> sl_coro sl = Coro m CFresh -> F m) /\
  s_pc s <> Created.

Lemma chosen_step0 c F l0 s l s' : wf_dag (c_dag c) -> Inv c s -> chosen F l0 s -> inner_label l = true ->
  (forall k, l <> LVisThrow k) -> step c s l = Some s' -> chosen F l0 s'.
Proof.
  intros Hwf HI [H1 [H2 H3]] Hl Hnv E.
  (* nothing happens to the log but an event that is no before_run *)
  assert (G : forall es, s_log s' = es ++ s_log s -> (forall er m, ~ In (EBeforeRun er m) es) ->
              forall er m, In (EBeforeRun er m) (s_log s') -> In (EBeforeRun er m) l0 \/ F m).
  { intros es El Hes er m H. rewrite El in H. apply in_app_iff in H. destruct H as [H|H]; [destruct (Hes _ _ H)|apply (H1 er), H]. }
  destruct l; try discriminate; cbn [step] in E.
  - destruct (ctl_cases c s s' HI E) as
      [ph kept sl rest n s' Epc Esl _ Es|ph kept sl rest n s' Epc Esl _ _ Es
      |ph kept sl rest n s1 s' Epc Esl _ _ Es1 Es|ph kept sl rest n rec s' Epc Esl Ef Es
      |ph kept sl rest n rec s' Epc Esl _ Es|ph kept sl rest n rec o s1 s2 s' Epc Esl _ Es1 Es2 Es
      |kept s1 s' Epc Es1 Es|kept s1 s' Epc Es1 Es|e s' Epc Es|e sl rest s' Epc _ Es|s' Epc Es|sl rest s' Epc _ Es].
    + subst s'. split; [|split].
      * cbn. intros er m [H|[H|H]]; [discriminate| |apply (H1 er), H]. inversion H; subst.
        right. eapply H2; [exact Epc|left; reflexivity|exact Esl].
      * cbn. intros ? ? ? sl0 m0 Q Hin Hsl. inversion Q; subst. eapply H2; [exact Epc|right; exact Hin|exact Hsl].
      * discriminate.
    + subst s'. split; [|split].
      * cbn. intros er m [H|[H|H]]; [discriminate| |apply (H1 er), H]. inversion H; subst.
        right. eapply H2; [exact Epc|left; reflexivity|exact Esl].
      * cbn. intros ? ? ? sl0 m0 Q Hin Hsl. inversion Q; subst. eapply H2; [exact Epc|right; exact Hin|exact Hsl].
      * discriminate.
    + subst s' s1. split; [|split].
      * cbn. intros er m [H|[H|H]]; [discriminate| |apply (H1 er), H]. inversion H; subst.
        right. eapply H2; [exact Epc|left; reflexivity|exact Esl].
      * cbn. intros ? ? ? sl0 m0 Q Hin Hsl. inversion Q; subst. destruct Hin as [<-|Hin]; [discriminate Hsl|].
        eapply H2; [exact Epc|right; exact Hin|exact Hsl].
      * discriminate.
    + subst s'. split; [|split].
      * apply (G [EBegin n]); [reflexivity|]. intros er m [H|[]]. discriminate.
      * cbn. intros ? ? ? sl0 m0 Q Hin Hsl. eapply H2; eassumption.
      * exact H3.
    + subst s'. split; [|split].
      * apply (G [ETimeout n]); [reflexivity|]. intros er m [H|[]]. discriminate.
      * cbn. intros ? ? ? sl0 m0 Q Hin Hsl. inversion Q; subst. eapply H2; [exact Epc|right; exact Hin|exact Hsl].
      * discriminate.
    + split; [|split].
      * apply (G [EAfterRun (s_erec s) (finish_record rec (run_lambda o) (s_clock s)) (sl_node sl);
                  ERunLog n (rr_log (run_lambda o))]); [subst s' s2 s1; destruct (negb _); reflexivity|].
        intros er m [H|[H|[]]]; discriminate.
      * intros ? ? ? sl0 m0 Q Hin Hsl. subst s'. cbn in Q. inversion Q; subst. eapply H2; [exact Epc|right; exact Hin|exact Hsl].
      * subst s'. discriminate.
    + subst s1. destruct (dispatch_cases c s kept s' Hwf HI Epc Es) as [s' X1 X2 X3 X4|m0 s' X1 X2 X3 X4|s' X1 X2 X3];
        clear Es; subst s'; (split; [exact H1|split; [discriminate|discriminate]]).
    + subst s' s1. split; [exact H1|split; [discriminate|discriminate]].
    + subst s'. split; [exact H1|split; [discriminate|discriminate]].
    + subst s'. split; [exact H1|split; [discriminate|discriminate]].
    + subst s'. split; [|split; [discriminate|discriminate]].
      apply (G [EDestroyed]); [reflexivity|]. intros er m [H|[]]. discriminate.
    + subst s'. split; [exact H1|split; [discriminate|discriminate]].
  - destruct (launchfail_cases c s s' HI E) as (ph & kept & sl & rest & n & Epc & Esl & _ & Ep & El & _).
    split; [|rewrite Ep; split; [discriminate|discriminate]].
    intros er m H. rewrite El in H. destruct H as [H|H]; [|apply (H1 er), H]. inversion H; subst.
    right. eapply H2; [exact Epc|left; reflexivity|exact Esl].
  - destruct (Hnv k eq_refl).
  - destruct (s_fut s n) eqn:Ef; try discriminate. inversion E; subst. split; [|split; [exact H2|exact H3]].
    apply (G [EBegin n]); [reflexivity|]. intros er m [H|[]]. discriminate.
  - destruct (s_fut s n) eqn:Ef; try discriminate. inversion E; subst. split; [|split; [exact H2|exact H3]].
    apply (G [EEnd n o]); [reflexivity|]. intros er m [H|[]]. discriminate.
  - inversion E; subst. split; [exact H1|split; [exact H2|exact H3]].
Qed.

Definition is_before (e : event) : bool := match e with EBeforeRun _ _ => true | _ => false end.
Definition quietly (l0 : list event) (s : state) : Prop :=
  forall e, In e (s_log s) -> In e l0 \/ is_before e = false.

Lemma quietly_emits l0 es : forall s, quietly l0 s -> Forall (fun e => is_before e = false) es -> quietly l0 (emits s es).
Proof.
  intros s H Hes e He. rewrite emits_eq in He. cbn in He. apply in_app_iff in He. destruct He as [He|He]; [|exact (H e He)].
  right. rewrite Forall_forall in Hes. apply Hes, in_rev, He.
Qed.

Lemma quietly_top l0 s : quietly l0 s -> quietly l0 (main_top s) /\ quietly l0 (drain_top s).
Proof.
  intros H.
  assert (D : quietly l0 (drain_top s)).
  { unfold drain_top. destruct (s_coros s); [|exact H]. intros e [He|He]; [subst e; right; reflexivity|exact (H e He)]. }
  split; [|exact D]. unfold main_top. destruct (s_todo s); [exact D|].
  intros e [He|He]; [subst e; right; reflexivity|exact (H e He)].
Qed.

Lemma quietly_start c l0 s : quietly l0 s -> quietly l0 (start c s).
Proof.
  intros H. unfold start. cbv zeta. set (s0 := set_erec _ _).
  assert (H0 : quietly l0 s0).
  { assert (G : quietly l0 (emits (set_todo s (fold_left (fun l n => set_insert n l) (node_ids (c_dag c)) []))
                                  (map EEnque (node_ids (c_dag c))))).
    { apply quietly_emits; [exact H|]. apply Forall_forall. intros e He. apply in_map_iff in He as (n & <- & _). reflexivity. }
    exact G. }
  assert (Hc : forall s cs, quietly l0 s -> quietly l0 (emits s (map ECycle cs))).
  { intros s1 cs H1. apply quietly_emits; [exact H1|]. apply Forall_forall. intros e He. apply in_map_iff in He as (n & <- & _). reflexivity. }
  assert (Hi : forall s ev, quietly l0 s -> quietly l0 (emits s (map inval_to_event ev))).
  { intros s1 ev H1. apply quietly_emits; [exact H1|]. apply Forall_forall. intros e He. apply in_map_iff in He as (i & <- & _). destruct i; reflexivity. }
  destruct (has_cycle _ _ _) as [[[|] cyc]|]; [| |exact H0].
  - exact (Hc s0 cyc H0).
  - destruct (inval_pass _ _ _ _ _ _) as [ns prop ev|n ev|n ev].
    + destruct (prop_loop _ _ _ _ _ _) as [ns' ev'|p|]; [|exact (Hc s0 cyc H0)|exact (Hc s0 cyc H0)].
      apply quietly_top. exact (Hi _ ev' (Hc s0 cyc H0)).
    + exact (Hi _ ev (Hc s0 cyc H0)).
    + exact (Hi _ ev (Hc s0 cyc H0)).
Qed.

Lemma quietly_tick c s s' : tick c s = Some s' -> quietly (s_log s) s'.
Proof.
  intros E. assert (H : quietly (s_log s) s) by (intros e He; left; exact He).
  unfold tick in E. destruct (s_pc s) as [|ph| | | | | | |]; try discriminate.
  - inversion E. apply quietly_start, H.
  - destruct ph; inversion E; apply quietly_top, H.
  - inversion E; subst. exact H.
  - inversion E; subst. exact H.
Qed.

Lemma chosen_step c F l0 s l s' : wf_dag (c_dag c) -> Inv c s -> chosen F l0 s -> inner_label l = true ->
  step c s l = Some s' -> chosen F l0 s'.
Proof.
  intros Hwf HI HS Hl E.
  assert (Hk : (exists k, l = LVisThrow k) \/ forall k, l <> LVisThrow k) by (destruct l; eauto; right; discriminate).
  destruct Hk as [[k ->]|Hk]; [|eapply chosen_step0; eassumption]. cbn [step] in E.
  destruct (match s_pc s with Created | Suspended _ => tick c s | Clean _ _ _ => ctl c s true | _ => None end) as [s1|] eqn:E1; [|discriminate].
  assert (HL : exists l0, step c s l0 = Some s1 /\ (l0 = LTick \/ l0 = LCtl)).
  { destruct (s_pc s); try discriminate; [exists LTick|exists LTick|exists LCtl]; (split; [exact E1|auto]). }
  destruct HL as [l1 [El1 Hl1]].
  destruct (step_log c s l1 s1 Hwf HI El1) as [new En].
  destruct (visthrow_cases s s1 k s' E) as [es [rest [Es [es2 Ees]]]].
  rewrite En, app_length, Nat.add_sub, firstn_app, Nat.sub_diag, firstn_O, app_nil_r, firstn_all in Ees.
  assert (Elog1 : s_log s1 = rev (es ++ es2) ++ s_log s) by (rewrite <- Ees, rev_involutive; exact En).
  assert (El : s_log s' = rev es ++ s_log s) by (rewrite Es, emits_eq; destruct s; reflexivity).
  assert (Hsub : forall e, In e (s_log s') -> In e (s_log s1)).
  { intros e He. rewrite El in He. rewrite Elog1, rev_app_distr, <- app_assoc. apply in_app_iff. right. exact He. }
  split; [|rewrite Es; split; [discriminate|discriminate]].
  intros er m H. destruct Hl1 as [->| ->].
  - destruct (quietly_tick c s s1 El1 _ (Hsub _ H)) as [G|G]; [|discriminate]. apply (proj1 HS er), G.
  - assert (S1 : chosen F l0 s1) by (apply (chosen_step0 c F l0 s LCtl s1); [exact Hwf|exact HI|exact HS|reflexivity|discriminate|exact El1]).
    apply (proj1 S1 er), Hsub, H.
Qed.

Lemma chosen_run c F l0 : wf_dag (c_dag c) -> forall ls s s', Inv c s -> chosen F l0 s -> forallb inner_label ls = true ->
  run_labels c s ls = Some s' -> chosen F l0 s'.
Proof.
  intros Hwf. induction ls as [|l ls IH]; intros s s' HI HC Hl E; [inversion E; subst; exact HC|].
  cbn in E, Hl. apply andb_true_iff in Hl. destruct Hl as [Hl1 Hl2].
  destruct (step c s l) as [s1|] eqn:E1; [|discriminate].
  apply (IH s1 s'); [eapply step_inv; eassumption|eapply chosen_step; eassumption|exact Hl2|exact E].
Qed.

(** The tasks chosen by the previous tick. *)
Definition next (s : state) (m : nid) : Prop :=
  (exists ph, s_pc s = Suspended ph) /\ In (Coro m CFresh) (live s).

Lemma tick_chosen c s s1 : wf_dag (c_dag c) -> Inv c s -> step c s LTick = Some s1 -> chosen (next s) (s_log s) s1.
Proof.
  intros Hwf HI E. cbn in E. split; [|split].
  - intros er m H. destruct (quietly_tick c s s1 E _ H) as [G|G]; [left; exact G|discriminate].
  - intros ph0 kept rest sl m Ep Hin Hsl. unfold tick in E.
    destruct (s_pc s) as [|ph| | | | | | |] eqn:Epc; try discriminate.
    + exfalso. inversion E; subst s1. destruct (start_spec c Hwf s HI Epc) as [R _].
      inversion R as [? ? cyc L1 L2 L3|? ? m0 pre post L2 L1 L3 L4 L5 L6 L7|? ? m0 pre post L2 L1 L3 L4 L5 L6 L7
                 |? ? s2 evd todo Es T1 El1 Ep1 Et Hso Ec]; subst; try congruence.
      rewrite Es in Ep. unfold main_top, drain_top in Ep. rewrite Ec in Ep.
      destruct (s_todo s2); [discriminate|]. cbn in Ep. inversion Ep; subst rest. destruct Hin.
    + split; [exists ph; exact Epc|]. unfold live. rewrite Epc. cbn. rewrite <- Hsl. apply in_map.
      assert (Hd : s_pc (drain_top s) = Clean ph0 kept rest -> In sl (s_coros s)).
      { unfold drain_top. destruct (s_coros s) eqn:Ec; [discriminate|]. cbn. intros Q. inversion Q; subst. exact Hin. }
      destruct ph; inversion E; subst s1; [|exact (Hd Ep)].
      unfold main_top in Ep. destruct (s_todo s); [exact (Hd Ep)|]. cbn in Ep. inversion Ep; subst. exact Hin.
    + inversion E; subst. discriminate.
    + inversion E; subst. discriminate.
  - unfold tick in E. destruct (s_pc s) as [|ph| | | | | | |] eqn:Epc; try discriminate.
    + inversion E; subst s1. intros Q. pose proof (step_inv c Hwf s LTick (start c s) HI) as HI'.
      cbn in HI'. unfold tick in HI'. rewrite Epc in HI'. specialize (HI' eq_refl).
      destruct (start_spec c Hwf s HI Epc) as [R _].
      inversion R as [? ? cyc L1 L2 L3|? ? m0 pre post L2 L1 L3 L4 L5 L6 L7|? ? m0 pre post L2 L1 L3 L4 L5 L6 L7
                 |? ? s2 evd todo Es T1 El1 Ep1 Et Hso Ec]; subst; try congruence.
      rewrite Es in Q. unfold main_top, drain_top in Q. rewrite Ec in Q. destruct (s_todo s2); discriminate.
    + unfold main_top, drain_top in E.
      destruct ph; [destruct (s_todo s)|]; try destruct (s_coros s); inversion E; subst; discriminate.
    + inversion E; subst. discriminate.
    + inversion E; subst. discriminate.
Qed.

Lemma next_could_run c z s m : wf_dag (c_dag c) -> reachable c z s -> next s m -> could_run c (trace s) m.
Proof.
  intros Hwf HR [[ph Epc] Hm].
  pose proof (r_inv c z s Hwf HR) as HI. pose proof (i_pc _ _ HI) as P. unfold pc_inv in P. rewrite Epc in P.
  destruct P as [A _]. unfold act in A.
  destruct (a_idle _ _ _ _ _ _ _ _ A m (or_intror Hm)) as [_ [_ Hb]].
  destruct (a_fresh _ _ _ _ _ _ _ _ A m Hm) as [Ha Hr].
  split; [|split; [|split]].
  - apply (act_lv_ids c _ _ _ _ _ _ _ A). apply in_map_iff. exists (Coro m CFresh). auto.
  - intros er H. apply Hb. exists er. apply trace_in, H.
  - intros m' H. destruct (Ha m' H) as [r [G1 G2]]. exists r. rewrite <- recs_trace. auto.
  - intros h r Hl Hn Hrm Hrh. apply (Hr r Hrm). apply (resources_in_use c z s r Hwf HR); [rewrite Epc; exact I|].
    exists h. auto.
Qed.

Lemma fresh_unique lv m m' : fresh_last lv -> In (Coro m CFresh) lv -> In (Coro m' CFresh) lv -> m = m'.
Proof.
  intros HF H H'. apply in_split in H. destruct H as [l1 [l2 E]].
  pose proof (HF l1 _ l2 E eq_refl) as ->. rewrite E in H'. apply in_app_iff in H'. destruct H' as [H'|[H'|[]]].
  - apply in_split in H'. destruct H' as [k1 [k2 E']].
    assert (Ex : k2 ++ [Coro m CFresh] = []).
    { apply (HF k1 (Coro m' CFresh)); [|reflexivity]. rewrite E, E', <- app_assoc. reflexivity. }
    destruct k2; discriminate.
  - inversion H'. reflexivity.
Qed.

Section Tick.
Variables (c : config) (z : Z) (s s1 : state) (ls : list label) (s2 : state) (new : list event).
Hypothesis Hwf : wf_dag (c_dag c).
Hypothesis HR : reachable c z s.
Hypothesis E1 : step c s LTick = Some s1.
Hypothesis Hls : forallb inner_label ls = true.
Hypothesis E2 : run_labels c s1 ls = Some s2.
Hypothesis Hnew : extends s s2 new.

Lemma tick_reach : reachable c z s2.
Proof.
  destruct HR as [l0 E0]. exists (l0 ++ LTick :: ls).
  assert (G : forall a s0 b, run_labels c s0 a = Some s -> run_labels c s0 (a ++ b) = run_labels c s b).
  { induction a as [|l a IH]; intros s0 b H; cbn in *; [inversion H; reflexivity|].
    destruct (step c s0 l); [apply IH, H|discriminate]. }
  rewrite (G _ _ _ E0). cbn [run_labels]. rewrite E1. exact E2.
Qed.

Lemma new_next er m : In (EBeforeRun er m) new -> next s m.
Proof.
  intros H. pose proof (r_inv c z s Hwf HR) as HI.
  assert (HI1 : Inv c s1) by (eapply step_inv; eassumption).
  destruct (chosen_run c (next s) (s_log s) Hwf ls s1 s2 HI1 (tick_chosen c s s1 Hwf HI E1) Hls E2) as [G _].
  assert (Hin : In (EBeforeRun er m) (trace s2)) by (rewrite Hnew; apply in_app_iff; right; exact H).
  destruct (G er m (proj1 (trace_in _ _) Hin)) as [Hold|Hn]; [exfalso|exact Hn].
  apply in_split in H. destruct H as [a [b Eab]].
  apply trace_in in Hold.
  pose proof (r_log c z s2 Hwf tick_reach) as L.
  assert (El : s_log s2 = rev b ++ EBeforeRun er m :: rev (trace s ++ a)).
  { rewrite <- (rev_involutive (s_log s2)). fold (trace s2). rewrite Hnew, Eab, app_assoc, rev_app_distr. cbn.
    rewrite <- app_assoc. reflexivity. }
  rewrite El in L. apply log_ok_app in L. destruct L as [[Hc _] _]. cbn in Hc.
  destruct Hc as [_ [_ [_ [Hc _]]]]. apply Hc. exists er. apply -> in_rev. apply in_app_iff. left. exact Hold.
Qed.
End Tick.

(** Only tasks that could already run when tick() was called are started by it. *)
Lemma tick_starts_what_could_run : forall c z s s1 ls s2 new er m,
  wf_dag (c_dag c) -> reachable c z s -> step c s LTick = Some s1 ->
  forallb inner_label ls = true -> run_labels c s1 ls = Some s2 -> extends s s2 new ->
  In (EBeforeRun er m) new -> could_run c (trace s) m.
Proof.
  intros c z s s1 ls s2 new er m Hwf HR E1 Hls E2 Hn Hin.
  eapply next_could_run; [exact Hwf|exact HR|]. eapply new_next; eassumption.
Qed.

(** At most one. *)
Lemma tick_starts_one : forall c z s s1 ls s2 new a er m b,
  wf_dag (c_dag c) -> reachable c z s -> step c s LTick = Some s1 ->
  forallb inner_label ls = true -> run_labels c s1 ls = Some s2 -> extends s s2 new ->
  new = a ++ EBeforeRun er m :: b ->
  forall er' m', ~ In (EBeforeRun er' m') (a ++ b).
Proof.
  intros c z s s1 ls s2 new a er m b Hwf HR E1 Hls E2 Hn Enew er' m' Hin.
  assert (N : next s m) by (eapply new_next; try eassumption; rewrite Enew; apply in_app_iff; right; left; reflexivity).
  assert (N' : next s m').
  { eapply new_next; try eassumption. rewrite Enew. apply in_app_iff. apply in_app_iff in Hin.
    destruct Hin as [Hin|Hin]; [left; exact Hin|right; right; exact Hin]. }
  assert (Em : m = m').
  { destruct N as [[ph Epc] N]. destruct N' as [_ N'].
    pose proof (i_pc _ _ (r_inv c z s Hwf HR)) as P. unfold pc_inv in P. rewrite Epc in P.
    destruct P as [A _]. eapply fresh_unique; [apply (a_fl _ _ _ _ _ _ _ _ A)|exact N|exact N']. }
  subst m'.
  pose proof (r_log c z s2 Hwf (tick_reach c z s s1 ls s2 HR E1 E2)) as L.
  assert (G : forall x e1 y e2 w, trace s2 = x ++ EBeforeRun e1 m :: y ++ EBeforeRun e2 m :: w -> False).
  { intros x e1 y e2 w Et.
    assert (El : s_log s2 = rev w ++ EBeforeRun e2 m :: rev (x ++ EBeforeRun e1 m :: y)).
    { rewrite <- (rev_involutive (s_log s2)). fold (trace s2). rewrite Et.
      replace (x ++ EBeforeRun e1 m :: y ++ EBeforeRun e2 m :: w) with ((x ++ EBeforeRun e1 m :: y) ++ EBeforeRun e2 m :: w)
        by (rewrite <- app_assoc; reflexivity).
      rewrite rev_app_distr. cbn. rewrite <- app_assoc. reflexivity. }
    rewrite El in L. apply log_ok_app in L. destruct L as [[Hc _] _]. cbn in Hc.
    destruct Hc as [_ [_ [_ [Hc _]]]]. apply Hc. exists e1. apply -> in_rev. apply in_app_iff. right. left. reflexivity. }
  unfold extends in Hn. rewrite Enew in Hn. apply in_app_iff in Hin. destruct Hin as [Hin|Hin]; apply in_split in Hin; destruct Hin as [x [y Exy]].
  - apply (G (trace s ++ x) er' y er b). rewrite Hn, Exy, <- !app_assoc. reflexivity.
  - apply (G (trace s ++ a) er x er' y). rewrite Hn, Exy, <- !app_assoc. reflexivity.
Qed.

(** * A tick records every job that had ended before it *)

Definition collecting (n : nid) (s : state) : Prop :=
  recorded_l (s_log s) n \/
  (exists ph kept rest sl rec o, s_pc s = Clean ph kept rest /\ In sl rest /\ sl_coro sl = Coro n (CWait rec)
                                 /\ s_fut s n = FReady o) \/
  match s_pc s with Unwind _ _ | Failed _ => True | _ => False end.

Lemma recorded_more c s l s' n : wf_dag (c_dag c) -> Inv c s -> step c s l = Some s' ->
  recorded_l (s_log s) n -> recorded_l (s_log s') n.
Proof. intros Hwf HI E H. destruct (step_log c s l s' Hwf HI E) as [new ->]. apply recorded_app, H. Qed.

Lemma collecting_step c n s l s' : wf_dag (c_dag c) -> Inv c s -> collecting n s -> inner_label l = true ->
  step c s l = Some s' -> collecting n s'.
Proof.
  intros Hwf HI HC Hl E. destruct HC as [H|[H|H]].
  - left. eapply recorded_more; eassumption.
  - destruct H as (ph & kept & rest & sl & rec & o & Epc & Hin & Hsl & Hf).
    destruct l; try discriminate; cbn [step] in E.
    + destruct (ctl_cases c s s' HI E) as
        [ph' kept' sl' rest' n' s' Epc' Esl _ Es|ph' kept' sl' rest' n' s' Epc' Esl _ _ Es
        |ph' kept' sl' rest' n' s1 s' Epc' Esl _ _ Es1 Es|ph' kept' sl' rest' n' rec' s' Epc' Esl Ef Es
        |ph' kept' sl' rest' n' rec' s' Epc' Esl Ef Es|ph' kept' sl' rest' n' rec' o' s1 s2 s' Epc' Esl _ Es1 Es2 Es
        |kept' s1 s' Epc' Es1 Es|kept' s1 s' Epc' Es1 Es|e s' Epc' Es|e sl' rest' s' Epc' _ Es|s' Epc' Es|sl' rest' s' Epc' _ Es];
        rewrite Epc in Epc'; inversion Epc'; subst ph rest; try subst kept'.
      * subst s'. destruct Hin as [->|Hin]; [congruence|]. right; left. exists ph', kept, rest', sl, rec, o. auto.
      * subst s'. destruct Hin as [->|Hin]; [congruence|]. right; left. exists ph', kept, rest', sl, rec, o. auto.
      * destruct Hin as [->|Hin]; [congruence|].
        assert (Hne : n <> n').
        { intros <-. pose proof (i_pc _ _ HI) as P; unfold pc_inv in P; rewrite Epc in P; destruct P as [A _].
          assert (Hx : In (Coro n CFresh) (live s)) by (unfold live; rewrite Epc; apply in_app_iff; right; left; exact Esl).
          destruct (a_idle _ _ _ _ _ _ _ _ A n (or_intror Hx)) as [_ [Hy _]]. congruence. }
        subst s' s1. right; left. eexists ph', kept, _, sl, rec, o. split; [reflexivity|]. split; [right; exact Hin|].
        split; [exact Hsl|]. cbn. rewrite upd_other by exact Hne. exact Hf.
      * assert (Hne : n <> n') by congruence.
        subst s'. right; left. exists ph', kept, (sl' :: rest'), sl, rec, o. cbn. rewrite upd_other by exact Hne. auto.
      * destruct Hin as [->|Hin].
        { exfalso. rewrite Hsl in Esl. inversion Esl; subst n'. destruct Ef as [Ef|[Ef _]]; congruence. }
        subst s'. right; left. eexists ph', _, rest', sl, rec, o. split; [reflexivity|]. auto.
      * destruct Hin as [->|Hin].
        { left. rewrite Hsl in Esl. inversion Esl; subst n' rec'.
          assert (Hn : r_node rec = n).
          { pose proof (i_pc _ _ HI) as P; unfold pc_inv in P; rewrite Epc in P; destruct P as [A _].
            assert (Hx : In (Coro n (CWait rec)) (live s)) by (unfold live; rewrite Epc; apply in_app_iff; right; left; exact Hsl).
            destruct (w_rec _ _ _ _ _ _ (a_wait _ _ _ _ _ _ _ _ A _ _ Hx)) as [z0 ->]. reflexivity. }
          exists (finish_record rec (run_lambda o') (s_clock s)). split; [|exact Hn].
          apply recs_In. exists (s_erec s), (sl_node sl). subst s' s2 s1. destruct (negb _); left; reflexivity. }
        right; left. exists ph', kept, rest', sl, rec, o. subst s' s1 s2. destruct (negb _); auto.
      * destruct Hin.
      * destruct Hin.
    + destruct (launchfail_cases c s s' HI E) as (ph' & kept' & sl' & rest' & n' & _ & _ & _ & Ep & _).
      right; right. rewrite Ep. exact I.
    + destruct (match s_pc s with Created | Suspended _ => tick c s | Clean _ _ _ => ctl c s true | _ => None end) as [s1|]; [|discriminate].
      unfold visitor_throws in E. destruct (cut_at k _) as [es|]; [|discriminate]. inversion E; subst.
      right; right. exact I.
    + destruct (s_fut s n0) eqn:Ef; try discriminate. inversion E; subst. right; left. exists ph, kept, rest, sl, rec, o.
      cbn. rewrite upd_other by congruence. auto.
    + destruct (s_fut s n0) eqn:Ef; try discriminate. inversion E; subst. right; left. exists ph, kept, rest, sl, rec, o.
      cbn. rewrite upd_other by congruence. auto.
    + inversion E; subst. right; left. exists ph, kept, rest, sl, rec, o. auto.
  - right; right. destruct l; try discriminate; cbn [step] in E.
    + unfold ctl in E. destruct (s_pc s) eqn:Epc; try contradiction; [|discriminate].
      destruct rest; [inversion E; subst; exact I|]. destruct (destroy_one s s0); inversion E; subst; exact I.
    + unfold ctl in E. destruct (s_pc s) eqn:Epc; try contradiction; discriminate.
    + destruct (s_pc s); try contradiction; discriminate.
    + destruct (s_fut s n0); try discriminate. inversion E; subst. exact H.
    + destruct (s_fut s n0); try discriminate. inversion E; subst. exact H.
    + inversion E; subst. exact H.
Qed.

Lemma collecting_run c n : wf_dag (c_dag c) -> forall ls s s', Inv c s -> collecting n s -> forallb inner_label ls = true ->
  run_labels c s ls = Some s' -> collecting n s'.
Proof.
  intros Hwf. induction ls as [|l ls IH]; intros s s' HI HC Hl E; [inversion E; subst; exact HC|].
  cbn in E, Hl. apply andb_true_iff in Hl. destruct Hl as [Hl1 Hl2].
  destruct (step c s l) as [s1|] eqn:E1; [|discriminate].
  apply (IH s1 s'); [eapply step_inv; eassumption|eapply collecting_step; eassumption|exact Hl2|exact E].
Qed.

Lemma tick_collects : forall c z s s1 ls s2 n o,
  wf_dag (c_dag c) -> reachable c z s -> done s = false -> In (EEnd n o) (trace s) ->
  step c s LTick = Some s1 -> forallb inner_label ls = true -> run_labels c s1 ls = Some s2 ->
  tick_running s2 = false -> (forall e, result s2 <> RThrow e) ->
  recorded (trace s2) n.
Proof.
  intros c z s s1 ls s2 n o Hwf HR Hd Hend E1 Hls E2 Ht Hx.
  pose proof (r_inv c z s Hwf HR) as HI. pose proof (k_fut _ _ _ _ (i_core _ _ HI) n) as Hf.
  apply trace_in in Hend.
  assert (Hr : exists o', s_fut s n = FReady o').
  { destruct (s_fut s n); cbn in Hf; try (exfalso; eapply Hf; exact Hend). eauto. }
  destruct Hr as [o' Hr].
  assert (C1 : collecting n s1).
  { pose proof (i_pc _ _ HI) as P. unfold pc_inv in P. pose proof E1 as E1'. cbn in E1. unfold tick in E1.
    destruct (s_pc s) as [|ph| | | | | | |] eqn:Epc; try discriminate.
    - exfalso. destruct P as (_ & _ & _ & _ & _ & _ & P). rewrite P in Hend. destruct Hend.
    - destruct P as [A _]. unfold act in A.
      assert (Hid : In n (node_ids (c_dag c))) by (apply (k_ids _ _ _ _ (i_core _ _ HI)); congruence).
      apply (act_where c _ _ _ _ _ _ _ A) in Hid. destruct Hid as [H|[H|H]].
      + exfalso. destruct (a_idle _ _ _ _ _ _ _ _ A n (or_introl H)) as [_ [G _]]. congruence.
      + apply (act_lv_cases _ _) in H. destruct H as [H|[rec H]].
        { exfalso. destruct (a_idle _ _ _ _ _ _ _ _ A n (or_intror H)) as [_ [G _]]. congruence. }
        unfold live in H. rewrite Epc in H. cbn in H. apply in_map_iff in H. destruct H as [sl [Hsl Hin]].
        right; left.
        assert (Hdr : exists ph' kept rest, s_pc (drain_top s) = Clean ph' kept rest /\ In sl rest /\ s_fut (drain_top s) = s_fut s).
        { unfold drain_top. destruct (s_coros s) eqn:Ec; [destruct Hin|]. eexists _, _, _. split; [reflexivity|]. auto. }
        assert (Hmn : exists ph' kept rest, s_pc (main_top s) = Clean ph' kept rest /\ In sl rest /\ s_fut (main_top s) = s_fut s).
        { unfold main_top. destruct (s_todo s) eqn:Et; [exact Hdr|]. eexists _, _, _. split; [reflexivity|]. auto. }
        destruct ph; inversion E1; subst s1.
        * destruct Hmn as (p & k & r & G1 & G2 & G3). exists p, k, r, sl, rec, o'. rewrite G3. auto.
        * destruct Hdr as (p & k & r & G1 & G2 & G3). exists p, k, r, sl, rec, o'. rewrite G3. auto.
      + left. apply (recorded_more c s LTick s1 n Hwf HI E1'). apply (act_recorded c _ _ _ _ _ _ _ A). exact H.
    - unfold done in Hd. rewrite Epc in Hd. discriminate.
    - unfold done in Hd. rewrite Epc in Hd. discriminate. }
  assert (HI1 : Inv c s1) by (eapply step_inv; eassumption).
  destruct (collecting_run c n Hwf ls s1 s2 HI1 C1 Hls E2) as [H|[H|H]].
  - destruct H as [r [G1 G2]]. exists r. rewrite <- recs_trace. auto.
  - destruct H as (ph & kept & rest & sl & rec & o1 & Ep & _). unfold tick_running in Ht. rewrite Ep in Ht. discriminate.
  - unfold tick_running, result in *. destruct (s_pc s2); try contradiction; [discriminate|]. destruct (Hx e eq_refl).
Qed.
