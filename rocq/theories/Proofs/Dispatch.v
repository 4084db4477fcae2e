(** The scheduler does not idle: a task that could run, or another one, is started by the
    next tick unless all slots are taken. *)
From Coq Require Import Lia String Permutation.
From Verif Require Import Model.Common Model.Records Model.Jobs Model.TaskSet Model.Dag
     Model.Sched Model.Exec Spec.Graph Spec.Trace
     Proofs.Sets Proofs.SchedFacts Proofs.InvalFacts Proofs.TraceFacts Proofs.ExecInv
     Proofs.ExecStep Proofs.ExecCtl Proofs.LogFacts Proofs.ExecProps Proofs.ExecProps2
     Proofs.StepCases Proofs.ExecProps3 Proofs.Ticks.
Open Scope nat_scope.
Open Scope list_scope.

Definition susp_inv (c : config) (s : state) : Prop :=
  s_pc s = Suspended PMain ->
  (0 < c_threads c /\ c_threads c <= List.length (s_coros s)) \/
  (exists m, In (Coro m CFresh) (live s)) \/
  (forall n, In n (s_todo s) -> ~ ready (c_dag c) (s_ns s) (node_res c) (s_used s) n).

Lemma susp_step c s l s' : wf_dag (c_dag c) -> Inv c s -> susp_inv c s -> step c s l = Some s' -> susp_inv c s'.
Proof.
  intros Hwf HI HS E Epc'. destruct l; cbn [step] in E.
  - exfalso. unfold tick in E. destruct (s_pc s) as [|ph| | | | | | |] eqn:Epc; try discriminate.
    + inversion E; subst s'. destruct (start_spec c Hwf s HI Epc) as [R [_ [Rc _]]].
      inversion R as [? ? cyc L1 L2 L3|? ? m pre post L2 L1 L3 L4 L5 L6 L7|? ? m pre post L2 L1 L3 L4 L5 L6 L7
                 |? ? s1 evd todo Es T1 El Ep Et Hso Ec]; subst; try congruence.
      rewrite Es in Epc'. unfold main_top, drain_top in Epc'. rewrite Ec in Epc'.
      destruct (s_todo s1); discriminate.
    + destruct ph; inversion E; subst; unfold main_top, drain_top in Epc';
        [destruct (s_todo s)|]; try destruct (s_coros s); discriminate.
    + inversion E; subst. discriminate.
    + inversion E; subst. discriminate.
  - destruct (s_pc s); try discriminate; inversion E; subst; discriminate.
  - destruct (ctl_cases c s s' HI E) as
      [ph kept sl rest n s' Epc Esl _ Es|ph kept sl rest n s' Epc Esl _ _ Es
      |ph kept sl rest n s1 s' Epc Esl _ _ Es1 Es|ph kept sl rest n rec s' Epc Esl _ Es
      |ph kept sl rest n rec s' Epc Esl _ Es|ph kept sl rest n rec o s1 s2 s' Epc Esl _ Es1 Es2 Es
      |kept s1 s' Epc Es1 Es|kept s1 s' Epc Es1 Es|e s' Epc Es|e sl rest s' Epc _ Es|s' Epc Es|sl rest s' Epc _ Es].
    all: try (subst s'; try subst s1; cbn in Epc'; congruence).
    + subst s1. destruct (dispatch_cases c s kept s' Hwf HI Epc Es) as [s' E1 E2 E3 E4|m0 s' E1 E2 E3 E4|s' E1 E2 E3];
        clear Es; subst s'.
      * left. cbn. split; assumption.
      * right; left. exists m0. unfold live. cbn. rewrite map_app. apply in_app_iff. right. left. reflexivity.
      * right; right. exact E3.
  - destruct (launchfail_cases c s s' HI E) as [ph [kept [sl [rest [n [_ [_ [_ [Ep _]]]]]]]]]. congruence.
  - destruct (match s_pc s with Created | Suspended _ => tick c s | Clean _ _ _ => ctl c s true | _ => None end) as [s1|]; [|discriminate].
    unfold visitor_throws in E. destruct (cut_at k _) as [es|]; [|discriminate]. inversion E; subst. discriminate.
  - destruct (s_fut s n); try discriminate. inversion E; subst. exact (HS Epc').
  - destruct (s_fut s n); try discriminate. inversion E; subst. exact (HS Epc').
  - inversion E; subst. exact (HS Epc').
Qed.

Lemma susp_run c : wf_dag (c_dag c) -> forall ls s s', Inv c s -> susp_inv c s -> run_labels c s ls = Some s' -> susp_inv c s'.
Proof.
  intros Hwf. induction ls as [|l ls IH]; intros s s' HI HS E; [inversion E; subst; exact HS|].
  cbn in E. destruct (step c s l) as [s1|] eqn:E1; [|discriminate].
  apply (IH s1 s'); [eapply step_inv; eassumption|eapply susp_step; eassumption|exact E].
Qed.

Lemma susp_reachable c z s : wf_dag (c_dag c) -> reachable c z s -> susp_inv c s.
Proof. intros Hwf [ls E]. eapply susp_run; [exact Hwf|apply inv_init| |exact E]. intros H. discriminate. Qed.

(** A coroutine that has not begun is resumed before the tick ends. *)
Definition coming (m : nid) (s : state) : Prop :=
  (exists er, In (EBeforeRun er m) (s_log s)) \/
  (exists ph kept rest sl, s_pc s = Clean ph kept rest /\ In sl rest /\ sl_coro sl = Coro m CFresh) \/
  match s_pc s with Unwind _ _ | Failed _ => True | _ => False end.

Lemma coming_step c m s l s' : wf_dag (c_dag c) -> Inv c s -> coming m s -> inner_label l = true ->
  step c s l = Some s' -> coming m s'.
Proof.
  intros Hwf HI HC Hl E. destruct HC as [[er H]|[H|H]].
  - left. exists er. destruct (step_log c s l s' Hwf HI E) as [new ->]. apply in_app_iff. right. exact H.
  - destruct H as [ph [kept [rest [sl [Epc [Hin Hsl]]]]]].
    destruct l; try discriminate; cbn [step] in E.
    + destruct (ctl_cases c s s' HI E) as
        [ph' kept' sl' rest' n s' Epc' Esl _ Es|ph' kept' sl' rest' n s' Epc' Esl _ _ Es
        |ph' kept' sl' rest' n s1 s' Epc' Esl _ _ Es1 Es|ph' kept' sl' rest' n rec s' Epc' Esl _ Es
        |ph' kept' sl' rest' n rec s' Epc' Esl _ Es|ph' kept' sl' rest' n rec o s1 s2 s' Epc' Esl _ Es1 Es2 Es
        |kept' s1 s' Epc' Es1 Es|kept' s1 s' Epc' Es1 Es|e s' Epc' Es|e sl' rest' s' Epc' _ Es|s' Epc' Es|sl' rest' s' Epc' _ Es];
        rewrite Epc in Epc'; inversion Epc'; subst ph rest; try subst kept'.
      * subst s'. destruct Hin as [->|Hin].
        -- left. rewrite Hsl in Esl. inversion Esl; subst n. cbn. eauto.
        -- right; left. exists ph', kept, rest', sl. auto.
      * subst s'. destruct Hin as [->|Hin].
        -- left. rewrite Hsl in Esl. inversion Esl; subst n. cbn. eauto.
        -- right; left. exists ph', kept, rest', sl. auto.
      * subst s' s1. destruct Hin as [->|Hin].
        -- left. rewrite Hsl in Esl. inversion Esl; subst n. cbn. eauto.
        -- right; left. exists ph', kept. eexists. exists sl. split; [reflexivity|]. split; [right; exact Hin|exact Hsl].
      * subst s'. right; left. exists ph', kept, (sl' :: rest'), sl. auto.
      * subst s'. destruct Hin as [->|Hin]; [congruence|]. right; left.
        eexists _, _, _, sl. split; [reflexivity|]. auto.
      * destruct Hin as [->|Hin]; [congruence|]. right; left. exists ph', kept, rest', sl.
        split; [|auto]. subst s' s1 s2. destruct (negb _); reflexivity.
      * destruct Hin.
      * destruct Hin.
    + destruct (launchfail_cases c s s' HI E) as [ph' [kept' [sl' [rest' [n [_ [_ [_ [Ep _]]]]]]]]].
      right; right. rewrite Ep. exact I.
    + destruct (match s_pc s with Created | Suspended _ => tick c s | Clean _ _ _ => ctl c s true | _ => None end) as [s1|]; [|discriminate].
      unfold visitor_throws in E. destruct (cut_at k _) as [es|]; [|discriminate]. inversion E; subst.
      right; right. exact I.
    + destruct (s_fut s n); try discriminate. inversion E; subst. right; left. exists ph, kept, rest, sl. auto.
    + destruct (s_fut s n); try discriminate. inversion E; subst. right; left. exists ph, kept, rest, sl. auto.
    + inversion E; subst. right; left. exists ph, kept, rest, sl. auto.
  - right; right. destruct l; try discriminate; cbn [step] in E.
    + unfold ctl in E. destruct (s_pc s) eqn:Epc; try contradiction; [|discriminate].
      destruct rest; [inversion E; subst; exact I|]. destruct (destroy_one s s0); inversion E; subst; exact I.
    + unfold ctl in E. destruct (s_pc s) eqn:Epc; try contradiction; discriminate.
    + destruct (s_pc s); try contradiction; discriminate.
    + destruct (s_fut s n); try discriminate. inversion E; subst. exact H.
    + destruct (s_fut s n); try discriminate. inversion E; subst. exact H.
    + inversion E; subst. exact H.
Qed.

Lemma coming_run c m : wf_dag (c_dag c) -> forall ls s s', Inv c s -> coming m s -> forallb inner_label ls = true ->
  run_labels c s ls = Some s' -> coming m s'.
Proof.
  intros Hwf. induction ls as [|l ls IH]; intros s s' HI HC Hl E; [inversion E; subst; exact HC|].
  cbn in E, Hl. apply andb_true_iff in Hl. destruct Hl as [Hl1 Hl2].
  destruct (step c s l) as [s1|] eqn:E1; [|discriminate].
  apply (IH s1 s'); [eapply step_inv; eassumption|eapply coming_step; eassumption|exact Hl2|exact E].
Qed.

Lemma work_conserving : forall c z s ph n s1 ls s2,
  wf_dag (c_dag c) -> reachable c z s -> s_pc s = Suspended ph -> could_run c (trace s) n ->
  step c s LTick = Some s1 -> forallb inner_label ls = true -> run_labels c s1 ls = Some s2 ->
  tick_running s2 = false -> done s2 = false ->
  (0 < c_threads c /\ exists busy, NoDup busy /\ c_threads c <= List.length busy /\
     forall h, In h busy -> In (ELaunch h) (trace s) /\ ~ recorded (trace s) h) \/
  (exists er m new, extends s s2 new /\ In (EBeforeRun er m) new).
Proof.
  intros c z s ph n s1 ls s2 Hwf HR Epc [Hid [Hnb [Haf Hres]]] E1 Hls E2 Ht Hd.
  pose proof (r_inv c z s Hwf HR) as HI. pose proof (i_pc _ _ HI) as P. unfold pc_inv in P. rewrite Epc in P.
  destruct P as [A [_ [Pd _]]]. unfold act in A.
  pose proof (r_log c z s Hwf HR) as L.
  (* a fresh coroutine starts in this tick *)
  assert (F : forall m, In (Coro m CFresh) (live s) -> exists er m new, extends s s2 new /\ In (EBeforeRun er m) new).
  { intros m Hm. destruct (a_idle _ _ _ _ _ _ _ _ A m (or_intror Hm)) as [_ [_ Hb]].
    assert (Hlive : live s = map sl_coro (s_coros s)) by (unfold live; rewrite Epc; reflexivity).
    rewrite Hlive in Hm. apply in_map_iff in Hm. destruct Hm as [sl [Hsl Hin]].
    assert (C1 : coming m s1).
    { right; left. cbn in E1. unfold tick in E1. rewrite Epc in E1.
      assert (Hdr : exists ph' kept rest, s_pc (drain_top s) = Clean ph' kept rest /\ In sl rest).
      { unfold drain_top. destruct (s_coros s) eqn:Ec; [destruct Hin|]. eexists _, _, _. split; [reflexivity|exact Hin]. }
      assert (Hmn : exists ph' kept rest, s_pc (main_top s) = Clean ph' kept rest /\ In sl rest).
      { unfold main_top. destruct (s_todo s) eqn:Et; [exact Hdr|]. eexists _, _, _. split; [reflexivity|exact Hin]. }
      destruct ph; inversion E1; subst s1.
      - destruct Hmn as [p [k [r [G1 G2]]]]. exists p, k, r, sl. auto.
      - destruct Hdr as [p [k [r [G1 G2]]]]. exists p, k, r, sl. auto. }
    assert (HI1 : Inv c s1) by (eapply step_inv; eassumption).
    pose proof (coming_run c m Hwf ls s1 s2 HI1 C1 Hls E2) as C2.
    assert (HR12 : run_labels c s (LTick :: ls) = Some s2) by (cbn [run_labels]; rewrite E1; exact E2).
    destruct (run_log c Hwf (LTick :: ls) s s2 HI HR12) as [new En].
    destruct C2 as [[er H]|[[ph' [kept [rest [sl' [Ep _]]]]]|H]].
    - exists er, m, (rev new). split; [unfold extends, trace; rewrite En, rev_app_distr; reflexivity|].
      rewrite <- in_rev. rewrite En in H. apply in_app_iff in H. destruct H as [H|H]; [exact H|].
      exfalso. apply Hb. exists er. exact H.
    - unfold tick_running in Ht. rewrite Ep in Ht. discriminate.
    - unfold tick_running, done in *. destruct (s_pc s2); try contradiction; discriminate. }
  assert (Hn : In n (s_todo s) \/ In (Coro n CFresh) (live s)).
  { apply (act_where c _ _ _ _ _ _ _ A) in Hid. destruct Hid as [H|[H|H]]; [left; exact H| |].
    - apply (act_lv_cases _ _) in H. destruct H as [H|[rec H]]; [right; exact H|exfalso].
      destruct (w_before _ _ _ _ _ _ (a_wait _ _ _ _ _ _ _ _ A _ _ H)) as [er Hb]. apply (Hnb er), trace_in, Hb.
    - exfalso. apply (act_recorded c _ _ _ _ _ _ _ A) in H. destruct H as [r [G1 G2]].
      destruct (rec_at c _ _ L G1) as [l1 [er [x [l2 [El [He _]]]]]].
      destruct He as [_ [_ [[er' Hb] _]]]. rewrite G2 in Hb. apply (Hnb er'), trace_in. rewrite El.
      apply in_app_iff. right. right. exact Hb. }
  destruct Hn as [Hn|Hn]; [|right; exact (F n Hn)].
  destruct ph; [|destruct (Pd eq_refl) as [Et _]; rewrite Et in Hn; destruct Hn].
  destruct (susp_reachable c z s Hwf HR Epc) as [[T1 T2]|[[m Hm]|Hnr]].
  - (* all slots taken *)
    assert (Hlive : live s = map sl_coro (s_coros s)) by (unfold live; rewrite Epc; reflexivity).
    destruct (Forall_dec is_wait) with (l := live s) as [Hw|Hw].
    { intros [k st]. destruct st as [|rec]; [right; intros [r H]; discriminate|left; exists rec; reflexivity]. }
    + left. split; [exact T1|]. exists (map co_node (live s)). split; [|split].
      * pose proof (act_nodup c _ _ _ _ _ _ _ (proj1 Hwf) A) as Hnd. apply NoDup_app_iff in Hnd.
        destruct Hnd as [_ [Hnd _]]. apply NoDup_app_iff in Hnd. apply Hnd.
      * rewrite map_length, Hlive, map_length. exact T2.
      * intros h Hh. pose proof Hh as Hh'. apply in_map_iff in Hh. destruct Hh as [[h' st] [<- Hin]]. cbn [co_node] in *.
        rewrite Forall_forall in Hw. destruct (Hw _ Hin) as [rec Est]. cbn in Est. subst st.
        pose proof (a_wait _ _ _ _ _ _ _ _ A _ _ Hin) as W. split.
        -- apply trace_in. pose proof (k_fut _ _ _ _ (i_core _ _ HI) h') as Ff. pose proof (w_fut _ _ _ _ _ _ W) as Wf.
           destruct (s_fut s h'); [congruence|apply Ff..].
        -- intros H. eapply (act_lv_not_recorded c); [apply Hwf|exact A|exact Hh'|].
           destruct H as [r' [G1 G2]]. exists r'. rewrite recs_trace. auto.
    + right. assert (Hex : exists m, In (Coro m CFresh) (live s)).
      { clear - Hw. induction (live s) as [|[k st] l IH]; [destruct Hw; constructor|].
        destruct st as [|rec]; [exists k; left; reflexivity|].
        destruct IH as [m Hm]; [|exists m; right; exact Hm].
        intros H. apply Hw. constructor; [exists rec; reflexivity|exact H]. }
      destruct Hex as [m Hm]. exact (F m Hm).
  - right. exact (F m Hm).
  - exfalso. apply (Hnr n Hn). destruct (a_idle _ _ _ _ _ _ _ _ A n (or_introl Hn)) as [Fl _].
    split; [|split].
    + unfold free, flags in *. inversion Fl. auto.
    + intros m Hm. destruct (Haf m Hm) as [r [G1 G2]]. rewrite <- recs_trace in G1.
      destruct (a_snap _ _ _ _ _ _ _ _ A) as [Er _]. rewrite <- Er in G1.
      destruct (a_rec _ _ _ _ _ _ _ _ A r G1) as [G _]. rewrite <- G2. exact G.
    + intros r Hr Hu. apply (resources_in_use c z s r Hwf HR) in Hu; [|rewrite Epc; exact I].
      destruct Hu as [h [U1 [U2 U3]]]. exact (Hres h r U1 U2 Hr U3).
Qed.
