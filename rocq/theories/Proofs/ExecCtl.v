(** The rest of the control thread's steps: the end of a pass of cleanup_coros,
    dispatching, destruction of the run coroutines, and throwing visitors.  With it
    the invariant of Proofs/ExecInv.v holds in every reachable state. *)
From Coq Require Import Lia String Permutation.
From Verif Require Import Model.Common Model.Records Model.Jobs Model.TaskSet Model.Dag
     Model.Sched Model.Exec Spec.Graph Spec.Trace
     Proofs.Sets Proofs.SchedFacts Proofs.InvalFacts Proofs.TraceFacts Proofs.ExecInv
     Proofs.ExecStep.
Open Scope nat_scope.
Open Scope list_scope.

Lemma compact_coros cs : forall kept, List.length kept <= List.length cs ->
  map sl_coro (compact cs kept) = kept.
Proof.
  unfold compact. induction cs as [|x cs IH]; intros [|k kept] H; cbn in *; try reflexivity; [lia|].
  f_equal. apply IH. lia.
Qed.

Lemma compact_In cs kept sl : In sl (compact cs kept) ->
  In (sl_coro sl) kept /\ exists sl', In sl' cs /\ sl_node sl' = sl_node sl.
Proof.
  unfold compact. intros H. apply in_map_iff in H. destruct H as [[a b] [<- H]]. cbn.
  split; [eapply in_combine_r, H|]. apply in_combine_l in H. apply in_map_iff in H.
  destruct H as [sl' [E H]]. eauto.
Qed.

Section Ctl.
Variable c : config.
Let d := c_dag c.
Let ids := node_ids (c_dag c).
Hypothesis Hwf : wf_dag (c_dag c).
Let Hnd : NoDup ids := proj1 Hwf.

Lemma top_suspend s ph :
  Top c s -> (ph = PDrain -> s_todo s = [] /\ forall k, In k (map sl_coro (s_coros s)) -> is_wait k) ->
  Inv c (set_pc s (Suspended ph)).
Proof.
  intros T H1. constructor.
  - destruct s; apply T.
  - intros H. exfalso. apply (t_nodestr _ _ T). destruct s; exact H.
  - intros er H. exfalso. apply (t_noexec _ _ T er). destruct s; exact H.
  - unfold pc_inv, slots_ok, act, live. pose proof (top_slots c s T) as TS.
    destruct s as [pc todo ns used coros fut erec clock log]; cbn in *.
    split; [apply T|]. split; [|split].
    + split; [apply T|]. split; [apply T|]. intros Ht. destruct (t_slots _ _ T Ht) as [G1 G2].
      cbn in *. split; [exact G1|]. split; [|exact G2]. intros sl k Hs Hk. apply TS; assumption.
    + exact H1.
    + apply T.
  - intros Hd n Hn. exfalso. apply (top_defer_unfin c s n T Hd). destruct s; exact Hn.
Qed.

Lemma top_dispatch s :
  Top c s -> s_todo s <> [] ->
  (forall k, In k (map sl_coro (s_coros s)) -> is_wait k) ->
  (deferred c = true -> s_coros s = []) ->
  Inv c (dispatch c s).
Proof.
  intros T Ht Hw Hdef. unfold dispatch.
  destruct ((c_threads c <=? List.length (s_coros s)) && negb (c_threads c =? 0)) eqn:Elim.
  { apply top_suspend; [exact T|discriminate]. }
  assert (Hroom : List.length (s_coros s) < Nat.max 1 (c_threads c)).
  { apply andb_false_iff in Elim. destruct Elim as [E|E].
    - apply Nat.leb_gt in E. lia.
    - apply negb_false_iff in E. rewrite (Hdef E). cbn [List.length]. lia. }
  destruct (find_candidate_fuel (c_dag c) (s_ns s) (node_res c) (s_used s)
              (fun e He => proj2 (proj2 Hwf e He)) (s_todo s) (fuel_of c) []) as [r Er].
  { intros x Hx. eapply act_where; [apply T|]. auto. }
  { pose proof (unseen_le (node_ids (c_dag c)) []) as H. unfold fuel_of.
    unfold node_ids in H at 2. rewrite map_length in H. lia. }
  rewrite Er. pose proof (find_candidate_sound _ _ _ _ _ _ _ _ Er) as Hs.
  destruct r as [m|].
  - destruct Hs as [[[Hst Hdn] [Hdone Hres]] [n0 [Hn0 Hpath]]].
    assert (Hin0 : In n0 ids) by (eapply act_where; [apply T|]; auto).
    assert (Hm : In m ids).
    { clear -Hpath Hin0 Hwf. apply clos_rt_rtn1 in Hpath.
      destruct Hpath as [|y z Hyz _]; [exact Hin0|]. apply Hwf in Hyz. apply Hyz. }
    assert (Hmt : In m (s_todo s)).
    { pose proof (t_act _ _ T) as A. pose proof Hm as Hm'.
      eapply act_where in Hm'; [|exact A]. destruct Hm' as [H|[H|H]]; [exact H| |].
      - exfalso. apply in_map_iff in H. destruct H as [[m' st] [E H]]. cbn in E. subst m'.
        destruct (Hw _ H) as [rec Erec]. cbn in Erec. subst st.
        pose proof (w_flags _ _ _ _ _ _ (a_wait _ _ _ _ _ _ _ _ A _ _ H)) as F. unfold flags in F. congruence.
      - exfalso. apply in_map_iff in H. destruct H as [r [<- H]].
        destruct (a_rec _ _ _ _ _ _ _ _ A r H) as [F _]. congruence. }
    assert (Har : after_recorded c (s_log s) m).
    { intros t Htt. eapply act_done; [apply T| |apply Hdone, Htt]. apply Hwf in Htt. apply Htt. }
    set (s1 := set_coros (set_todo s (set_erase m (s_todo s))) (s_coros s ++ [Slot m (Coro m CFresh)])).
    assert (Hmap : map sl_coro (s_coros s1) = map sl_coro (s_coros s) ++ [Coro m CFresh]).
    { destruct s; cbn. rewrite map_app. reflexivity. }
    assert (T1 : Top c s1).
    { constructor.
      - rewrite Hmap. apply core_lv with (lv := map sl_coro (s_coros s)).
        + destruct s; apply T.
        + intros n Hn. destruct (k_unfin _ _ _ _ (t_core _ _ T) n) as [rec H]; [destruct s; exact Hn|].
          exists rec. apply in_app_iff. auto.
        + rewrite app_length, map_length. cbn [List.length]. lia.
      - rewrite Hmap. destruct s. apply act_dispatch; try assumption. apply T.
      - destruct s; apply T.
      - destruct s; apply T.
      - assert (E : s_coros s1 = s_coros s ++ [Slot m (Coro m CFresh)]) by (destruct s; reflexivity).
        rewrite E. intros sl Hsl. apply in_app_iff in Hsl. destruct Hsl as [Hsl|[<-|[]]]; [apply (t_ids _ _ T), Hsl|exact Hm].
      - assert (E : s_coros s1 = s_coros s ++ [Slot m (Coro m CFresh)]) by (destruct s; reflexivity).
        rewrite E. intros Hone. assert (Hnil : s_coros s = []).
        { destruct (s_coros s) eqn:Es; [reflexivity|]. cbn [List.length] in Hroom. lia. }
        rewrite Hnil. split; [cbn; lia|]. intros sl [<-|[]]. reflexivity.
      - rewrite Hmap. intros Hd k Hk. rewrite (Hdef Hd) in Hk. destruct Hk as [<-|[]].
        intros [rec E]. discriminate. }
    assert (E : s_coros s1 = s_coros s ++ [Slot m (Coro m CFresh)]) by (destruct s; reflexivity).
    fold s1. cbv zeta. destruct (s_coros s1) eqn:E1.
    { exfalso. destruct (s_coros s); discriminate. }
    apply top_suspend; [exact T1|discriminate].
  - cbv zeta. destruct (s_coros s) eqn:Ec.
    + exfalso. pose proof (t_act _ _ T) as A. rewrite Ec in A. cbn in A.
      destruct (act_progress c _ _ _ _ _ _ Hwf A Ht) as [n [Hn Hr]].
      destruct (Hs n Hn Hr).
    + apply top_suspend; [exact T|discriminate].
Qed.

Lemma step_pass_end s ph kept s' :
  Inv c s -> s_pc s = Clean ph kept [] -> ctl c s true = Some s' -> Inv c s'.
Proof.
  intros HI Epc H. unfold ctl in H. rewrite Epc in H.
  pose proof (i_pc _ _ HI) as P. unfold pc_inv in P. rewrite Epc in P.
  destruct P as [A [[S1 [S2 S3]] [P1 [P2 [P3 [P4 P5]]]]]].
  assert (Hl : live s = kept) by (unfold live; rewrite Epc; cbn; apply app_nil_r).
  unfold act in A. rewrite Hl in *. cbn in P2.
  assert (Hk : map sl_coro (compact (s_coros s) kept) = kept) by (apply compact_coros; lia).
  set (s1 := set_coros s (compact (s_coros s) kept)) in *.
  assert (Ec : s_coros s1 = compact (s_coros s) kept) by reflexivity.
  assert (T : Top c s1).
  { constructor; rewrite ?Ec, ?Hk.
    - pose proof (i_core _ _ HI) as K. rewrite Hl in K. exact K.
    - exact A.
    - apply (active_no_destr c s HI). rewrite Epc. auto.
    - intros er. apply (active_no_exec c s er HI). rewrite Epc. auto.
    - intros sl Hsl. apply compact_In in Hsl. destruct Hsl as [_ [sl' [H1 <-]]]. apply S1, H1.
    - intros Ht. destruct (S3 Ht) as [G1 [G2 G3]]. split.
      + rewrite <- (map_length sl_coro), Hk. lia.
      + intros sl Hsl. apply compact_In in Hsl. destruct Hsl as [H1 [sl' [H2 <-]]]. apply G2; assumption.
    - intros Hd k Hin. rewrite (P5 Hd) in Hin. destruct Hin. }
  destruct ph; inversion H; subst s'; clear H.
  - apply top_dispatch; [exact T|apply P4; reflexivity| |].
    + rewrite Ec, Hk. exact P1.
    + intros Hd. rewrite Ec, (P5 Hd). unfold compact. destruct (map sl_node (s_coros s)); reflexivity.
  - apply top_suspend; [exact T|]. intros _. split; [apply P3; reflexivity|]. rewrite Ec, Hk. exact P1.
Qed.

(** Destruction of the run coroutines. *)
Lemma destroy_core s sl rest :
  Inv c s -> (exists e, s_pc s = Unwind e (sl :: rest)) \/ s_pc s = Destroying (sl :: rest) ->
  destroy_one s sl = true -> Core c (s_fut s) (s_log s) (map sl_coro rest).
Proof.
  intros HI Hpc Hd.
  assert (Hl : live s = sl_coro sl :: map sl_coro rest).
  { unfold live. destruct Hpc as [[e ->]| ->]; reflexivity. }
  pose proof (i_core _ _ HI) as K. rewrite Hl in K.
  apply core_lv with (lv := sl_coro sl :: map sl_coro rest); [exact K| |].
  - intros n Hn. destruct (k_unfin _ _ _ _ K n Hn) as [rec [H|H]]; [|exists rec; exact H].
    exfalso. unfold destroy_one in Hd. rewrite H in Hd. cbn in Hd.
    destruct (deferred c) eqn:Ed.
    + destruct (i_defer _ _ HI Ed n Hn) as [ph [sl' [rest' [E _]]]].
      destruct Hpc as [[e E']|E']; congruence.
    + pose proof (k_kind _ _ _ _ K n) as G. rewrite Ed in G.
      destruct (s_fut s n); cbn in Hn; try contradiction; try discriminate; congruence.
  - pose proof (k_bound _ _ _ _ K) as B. cbn [List.length] in B. lia.
Qed.

Lemma step_unwind s e rest s' :
  Inv c s -> s_pc s = Unwind e rest -> ctl c s true = Some s' -> Inv c s'.
Proof.
  intros HI Epc H. unfold ctl in H. rewrite Epc in H.
  pose proof (i_pc _ _ HI) as P. unfold pc_inv in P. rewrite Epc in P.
  assert (Hnd' : ~ In EDestroyed (s_log s)).
  { intros Hin. apply (i_destr _ _ HI) in Hin. congruence. }
  assert (Hdef : deferred c = true -> forall n, ~ unfin (s_fut s n)).
  { intros Hd n Hn. destruct (i_defer _ _ HI Hd n Hn) as [ph [sl' [rest' [E _]]]]. congruence. }
  destruct rest as [|sl rest].
  - inversion H; subst s'; clear H.
    pose proof (i_core _ _ HI) as K. unfold live in K. rewrite Epc in K. cbn in K.
    constructor; cbn.
    + exact K.
    + tauto.
    + intros er Hin. auto.
    + split; [reflexivity|apply P].
    + intros Hd n Hn. destruct (Hdef Hd n Hn).
  - destruct (destroy_one s sl) eqn:Ed; [|discriminate]. inversion H; subst s'; clear H.
    constructor; cbn.
    + eapply destroy_core; eauto.
    + tauto.
    + intros er Hin. split; [exact I|]. apply (i_exec _ _ HI) in Hin. destruct Hin as [_ Hl].
      unfold live in Hl. rewrite Epc in Hl. discriminate.
    + exact P.
    + intros Hd n Hn. destruct (Hdef Hd n Hn).
Qed.

Lemma step_destroying s rest s' :
  Inv c s -> s_pc s = Destroying rest -> ctl c s true = Some s' -> Inv c s'.
Proof.
  intros HI Epc H. unfold ctl in H. rewrite Epc in H.
  assert (Hnd' : ~ In EDestroyed (s_log s)).
  { intros Hin. apply (i_destr _ _ HI) in Hin. congruence. }
  assert (Hdef : deferred c = true -> forall n, ~ unfin (s_fut s n)).
  { intros Hd n Hn. destruct (i_defer _ _ HI Hd n Hn) as [ph [sl' [rest' [E _]]]]. congruence. }
  destruct rest as [|sl rest].
  - inversion H; subst s'; clear H.
    pose proof (i_core _ _ HI) as K. unfold live in K. rewrite Epc in K. cbn in K.
    constructor; cbn.
    + apply core_emit; [exact K| |reflexivity|discriminate].
      split; [|split; [exact Hnd'|reflexivity]].
      cbn. intros n Hn. pose proof (k_fut _ _ _ _ K n) as F.
      destruct (s_fut s n) as [| | | |o] eqn:Ef; cbn in F.
      * destruct F as [F _]. contradiction.
      * destruct (k_unfin _ _ _ _ K n) as [? []]. rewrite Ef. exact I.
      * destruct (k_unfin _ _ _ _ K n) as [? []]. rewrite Ef. exact I.
      * destruct (k_unfin _ _ _ _ K n) as [? []]. rewrite Ef. exact I.
      * exists o. apply F.
    + reflexivity.
    + intros er Hin. auto.
    + split; [reflexivity|]. eauto.
    + intros Hd n Hn. destruct (Hdef Hd n Hn).
  - destruct (destroy_one s sl) eqn:Ed; [|discriminate]. inversion H; subst s'; clear H.
    constructor; cbn.
    + eapply destroy_core; eauto.
    + tauto.
    + intros er Hin. split; [exact I|]. apply (i_exec _ _ HI) in Hin. destruct Hin as [_ Hl].
      unfold live in Hl. rewrite Epc in Hl. discriminate.
    + exact I.
    + intros Hd n Hn. destruct (Hdef Hd n Hn).
Qed.

Lemma step_ctl s ok s' : Inv c s -> ctl c s ok = Some s' -> Inv c s'.
Proof.
  intros HI H. destruct (s_pc s) as [| |ph kept rest|e rest|rest| | | |] eqn:Epc;
    try (unfold ctl in H; rewrite Epc in H; discriminate).
  - destruct rest as [|sl rest].
    + destruct ok; [|unfold ctl in H; rewrite Epc in H; discriminate].
      eapply step_pass_end; eassumption.
    + unfold ctl in H. rewrite Epc in H. destruct (co_st (sl_coro sl)) as [|rec] eqn:Est.
      * eapply step_first; eassumption.
      * destruct ok; [|discriminate]. eapply step_poll; eassumption.
  - destruct ok; [|unfold ctl in H; rewrite Epc in H; discriminate]. eapply step_unwind; eassumption.
  - destruct ok; [|unfold ctl in H; rewrite Epc in H; discriminate]. eapply step_destroying; eassumption.
Qed.

(** * Throwing visitors *)

(** What happens up to the last callback of a step: callbacks, and questions to jobs. *)
Definition is_loud (e : event) : bool :=
  match e with EAsk _ => true | _ => is_callback e end.

Record new_ok (s s' : state) (cb nb : list event) : Prop := {
  v_log : s_log s' = rev (cb ++ nb) ++ s_log s;
  v_cb : Forall (fun e => is_loud e = true) cb;
  v_nb : Forall (fun e => is_callback e = false) nb;
  v_after : forall er r x, In (EAfterRun er r x) cb -> ~ unfin (s_fut s (r_node r));
  v_exec : forall er, In (EAfterExec er) cb -> live s = [];
  v_def : cb <> [] -> deferred c = true -> forall n, ~ unfin (s_fut s n)
}.

Lemma new_none s s' : s_log s' = s_log s -> new_ok s s' [] [].
Proof. intros E. constructor; cbn; try tauto; constructor. Qed.

Lemma top_new_drain s : Top c s -> live s = map sl_coro (s_coros s) ->
  exists cb nb, new_ok s (drain_top s) cb nb.
Proof.
  intros T Hl. unfold drain_top. destruct (s_coros s) eqn:E.
  - exists [EAfterExec (s_erec s)], []. constructor; cbn.
    + reflexivity.
    + constructor; [reflexivity|constructor].
    + constructor.
    + intros er r x [H|[]]; discriminate.
    + intros er _. exact Hl.
    + intros _ Hd n. apply (top_defer_unfin c); assumption.
  - exists [], []. apply new_none. reflexivity.
Qed.

Lemma top_new_main s : Top c s -> live s = map sl_coro (s_coros s) ->
  exists cb nb, new_ok s (main_top s) cb nb.
Proof.
  intros T Hl. unfold main_top. destruct (s_todo s).
  - apply top_new_drain; assumption.
  - exists [EOnTick (s_erec s)], []. constructor; cbn.
    + reflexivity.
    + constructor; [reflexivity|constructor].
    + constructor.
    + intros er r x [H|[]]; discriminate.
    + intros er [H|[]]; discriminate.
    + intros _ Hd m. apply (top_defer_unfin c); assumption.
Qed.

Lemma startup_cb log : Forall (fun e => is_startup e = true) log -> Forall (fun e => is_loud e = true) (rev log).
Proof.
  intros H. apply Forall_forall. intros e He. apply in_rev in He. rewrite Forall_forall in H.
  specialize (H e He). destruct e; try discriminate; reflexivity.
Qed.

Lemma new_start s : Inv c s -> s_pc s = Created -> exists cb nb, new_ok s (start c s) cb nb.
Proof.
  intros HI Epc. pose proof (i_pc _ _ HI) as P. unfold pc_inv in P. rewrite Epc in P.
  destruct P as [Q1 [Q2 [Q3 [Q4 [Q5 [Q6 Q7]]]]]].
  assert (Hl : live s = []) by (unfold live; rewrite Epc, Q4; reflexivity).
  assert (Hcb : Forall (fun e => is_loud e = true) (rev (s_log (start c s)))).
  { destruct (start_spec c Hwf s HI Epc) as [R _].
    inversion R as [? ? cyc L1 L2 L3|? ? n pre post L2 L1 L3 L4 L5 L6 L7|? ? n pre post L2 L1 L3 L4 L5 L6 L7 L8
                 |? ? s1 evd todo E T L1 L2 L3 L4 L5 L6 L7 L8 L9]; subst.
    - rewrite L1. cbn. apply Forall_app. split; [|constructor; [reflexivity|constructor]].
      apply startup_cb, jobinv_startup, enque_jobinv. apply (log1_ok c Hwf).
    - rewrite L1. apply startup_cb, jobinv_startup. apply (log2_ok c Hwf).
      + exact L7.
      + apply NoDup_app_iff in L3. apply L3.
      + intros x Hx. apply L4, in_app_iff. auto.
      + exact L6.
    - rewrite L1. apply startup_cb, jobinv_startup. apply (log2_throw c Hwf).
      + exact L7.
      + replace (pre ++ n :: post) with ((pre ++ [n]) ++ post) in L3 by (rewrite <- app_assoc; reflexivity).
        apply NoDup_app_iff in L3. apply L3.
      + intros x Hx. apply L4, in_mid. apply in_app_iff in Hx. cbn in Hx. intuition.
      + exact L6.
      + exact L8.
    - assert (Hs : Forall (fun e => is_loud e = true) (rev (s_log s1))).
      { rewrite L1. apply startup_cb. apply (log3_ok c Hwf); auto. apply sorted_NoDup, L4. }
      rewrite E. unfold main_top, drain_top. rewrite L5.
      destruct (s_todo s1); cbn; (apply Forall_app; split; [exact Hs|constructor; [reflexivity|constructor]]). }
  exists (rev (s_log (start c s))), []. constructor.
  - rewrite app_nil_r, rev_involutive, Q7, app_nil_r. reflexivity.
  - exact Hcb.
  - constructor.
  - intros. rewrite Q5. auto.
  - auto.
  - intros. rewrite Q5. auto.
Qed.

Lemma clean_def s ph kept sl rest :
  Inv c s -> s_pc s = Clean ph kept (sl :: rest) ->
  ~ unfin (s_fut s (co_node (sl_coro sl))) -> deferred c = true -> forall n, ~ unfin (s_fut s n).
Proof.
  intros HI Epc Hn Hd n Hu. destruct (i_defer _ _ HI Hd n Hu) as [ph' [sl' [rest' [E Em]]]].
  rewrite Epc in E. inversion E; subst. contradiction.
Qed.

Lemma new_ctl s s' : Inv c s -> (exists ph kept rest, s_pc s = Clean ph kept rest) ->
  ctl c s true = Some s' -> exists cb nb, new_ok s s' cb nb.
Proof.
  intros HI [ph [kept [rest Epc]]] H. unfold ctl in H. rewrite Epc in H.
  destruct rest as [|sl rest].
  - exists [], []. apply new_none. destruct ph; inversion H; [|reflexivity].
    unfold dispatch. destruct (_ && _); [reflexivity|].
    destruct (find_candidate _ _ _ _ _ _ _) as [[m|]|]; cbn [s_log set_pc];
      [| |reflexivity]; match goal with |- s_log (match ?x with _ => _ end) = _ => destruct x end; reflexivity.
  - set (n := co_node (sl_coro sl)).
    destruct (co_st (sl_coro sl)) as [|rec] eqn:Est.
    + assert (Hfut : s_fut s n = FNone).
      { eapply (a_idle _ _ _ _ _ _ _ _ (pass_act c s ph kept sl rest HI Epc)). right.
        apply (first_In kept sl rest Est). }
      assert (Hnu : ~ unfin (s_fut s n)) by (rewrite Hfut; auto).
      unfold run_first in H. fold n in H.
      destruct (inval_eqb (ns_inval (s_ns s n)) UNKNOWN).
      { inversion H; subst. exists [], []. apply new_none. reflexivity. }
      destruct (any_dep_failed _ _ n); [|destruct (inval_eqb _ VALID)]; inversion H; subst s'; clear H.
      * eexists [EBeforeRun (s_erec s) n; EAfterRun (s_erec s) (with_status (new_record c n (s_clock s)) DEPF) (sl_node sl)], [].
        constructor; cbn.
        -- reflexivity.
        -- repeat constructor.
        -- constructor.
        -- intros er r x [E|[E|[]]]; inversion E; subst. exact Hnu.
        -- intros er [E|[E|[]]]; discriminate.
        -- intros _ Hd m. eapply clean_def; eassumption.
      * eexists [EBeforeRun (s_erec s) n; EAfterRun (s_erec s) (with_status (new_record c n (s_clock s)) SKIP) (sl_node sl)], [].
        constructor; cbn.
        -- reflexivity.
        -- repeat constructor.
        -- constructor.
        -- intros er r x [E|[E|[]]]; inversion E; subst. exact Hnu.
        -- intros er [E|[E|[]]]; discriminate.
        -- intros _ Hd m. eapply clean_def; eassumption.
      * eexists [EBeforeRun (s_erec s) n], [ELaunch n].
        constructor; cbn.
        -- reflexivity.
        -- repeat constructor.
        -- repeat constructor.
        -- intros er r x [E|[]]; inversion E.
        -- intros er [E|[]]; discriminate.
        -- intros _ Hd m. eapply clean_def; eassumption.
    + unfold run_poll in H. fold n in H.
      pose proof (a_wait _ _ _ _ _ _ _ _ (pass_act c s ph kept sl rest HI Epc) n rec (poll_In kept sl rest rec Est)) as W.
      destruct (w_rec _ _ _ _ _ _ W) as [z Ez].
      destruct (s_fut s n) as [| | | |o] eqn:Ef.
      * discriminate.
      * inversion H; subst. exists [], [EBegin n]. constructor; cbn; try tauto; repeat constructor.
      * inversion H; subst. exists [], [ETimeout n]. constructor; cbn; try tauto; repeat constructor.
      * destruct (deferred c) eqn:Ed; [discriminate|].
        inversion H; subst. exists [], [ETimeout n]. constructor; cbn; try tauto; repeat constructor.
      * inversion H; subst s'; clear H.
        assert (Hnu : ~ unfin (s_fut s n)) by (rewrite Ef; auto).
        exists [ERunLog n (rr_log (run_lambda o));
                EAfterRun (s_erec s) (finish_record rec (run_lambda o) (s_clock s)) (sl_node sl)], [].
        constructor.
        -- unfold complete. destruct (negb (rr_retcode (run_lambda o) =? 0)%Z); destruct s; reflexivity.
        -- repeat constructor.
        -- constructor.
        -- intros er r x [E|[E|[]]]; inversion E; subst. cbn. exact Hnu.
        -- intros er [E|[E|[]]]; discriminate.
        -- intros _ Hd m. eapply clean_def; eassumption.
Qed.

Lemma cut_at_prefix cb nb : Forall (fun e => is_loud e = true) cb ->
  Forall (fun e => is_callback e = false) nb ->
  forall k es, cut_at k (cb ++ nb) = Some es ->
  exists es' e post, es = es' ++ [e] /\ cb = es ++ post /\ is_callback e = true.
Proof.
  intros Hcb Hnb. induction Hcb as [|e cb He Hcb IH]; intros k es H.
  - exfalso. revert k es H. induction Hnb as [|e nb He Hnb IH]; intros k es H; cbn in H; [discriminate|].
    rewrite He in H. destruct (cut_at k nb) as [es'|] eqn:E; [|discriminate]. eapply IH, E.
  - cbn in H. destruct (is_callback e) eqn:Hc; [destruct k as [|k]|].
    + inversion H; subst. exists [], e, cb. auto.
    + destruct (cut_at k (cb ++ nb)) as [es1|] eqn:E; [|discriminate]. inversion H; subst; clear H.
      destruct (IH k es1 E) as [es' [e' [post [-> [-> G]]]]].
      exists (e :: es'), e', post. auto.
    + destruct (cut_at k (cb ++ nb)) as [es1|] eqn:E; [|discriminate]. inversion H; subst; clear H.
      destruct (IH k es1 E) as [es' [e' [post [-> [-> G]]]]].
      exists (e :: es'), e', post. auto.
Qed.

Lemma core_emits fut lv es : forall log,
  Core c fut log lv -> log_ok c (rev es ++ log) -> Forall (fun e => is_loud e = true) es ->
  (forall er r x, In (EAfterRun er r x) es -> ~ unfin (fut (r_node r))) ->
  Core c fut (rev es ++ log) lv.
Proof.
  induction es as [|e es IH]; intros log K Hok Hcb Ha; [exact K|].
  cbn [rev] in *. rewrite <- app_assoc in *. cbn [app] in *.
  inversion Hcb as [|? ? He Hcb']; subst.
  apply IH; auto.
  - pose proof (log_ok_app _ _ _ Hok) as [Hev _]. apply core_emit; auto.
    + destruct e; try discriminate; reflexivity.
    + intros er r x ->. eapply Ha. left; reflexivity.
  - intros er r x Hin. eapply Ha. right; exact Hin.
Qed.

Lemma rest_live s :
  (match s_pc s with Created | Suspended _ | Clean _ _ _ => True | _ => False end) ->
  map sl_coro (match s_pc s with
               | Clean _ kept rest => map (fun k => Slot (co_node k) k) kept ++ rest
               | _ => s_coros s
               end) = live s.
Proof.
  unfold live. destruct (s_pc s); try tauto. intros _.
  rewrite map_app, map_map. cbn. rewrite map_id. reflexivity.
Qed.

Lemma step_visthrow s s1 k s' :
  Inv c s -> (match s_pc s with Created | Suspended _ | Clean _ _ _ => True | _ => False end) ->
  Inv c s1 -> (exists cb nb, new_ok s s1 cb nb) -> visitor_throws k s s1 = Some s' -> Inv c s'.
Proof.
  intros HI Hpc HI1 [cb [nb V]] H. unfold visitor_throws in H.
  assert (Enew : rev (firstn (List.length (s_log s1) - List.length (s_log s)) (s_log s1)) = cb ++ nb).
  { rewrite (v_log _ _ _ _ V), app_length.
    replace (List.length (rev (cb ++ nb)) + List.length (s_log s) - List.length (s_log s))
      with (List.length (rev (cb ++ nb)) + 0) by lia.
    rewrite firstn_app_2. cbn. rewrite app_nil_r, rev_involutive. reflexivity. }
  rewrite Enew in H. destruct (cut_at k (cb ++ nb)) as [es|] eqn:Ecut; [|discriminate].
  destruct (cut_at_prefix cb nb (v_cb _ _ _ _ V) (v_nb _ _ _ _ V) k es Ecut) as [es' [e [post [Ees [Ecb He]]]]].
  inversion H; subst s'; clear H.
  assert (Hlogs : log_ok c (rev es ++ s_log s)).
  { pose proof (k_log _ _ _ _ (i_core _ _ HI1)) as L. rewrite (v_log _ _ _ _ V), Ecb in L.
    rewrite !rev_app_distr, <- !app_assoc in L. apply log_ok_app in L. apply log_ok_app in L. exact L. }
  assert (Hin : forall x, In x es -> In x cb) by (intros x Hx; rewrite Ecb; apply in_app_iff; auto).
  assert (Hcb : Forall (fun e => is_loud e = true) es).
  { pose proof (v_cb _ _ _ _ V) as F. rewrite Forall_forall in *. auto. }
  assert (Hna : ~ inactive (s_pc s)) by (destruct (s_pc s); cbn; tauto).
  rewrite emits_eq.
  pose proof (rest_live s Hpc) as Hrl.
  constructor; cbn.
  - unfold live; cbn. rewrite Hrl. apply core_emits; auto; [apply HI|].
    intros er r x Hx. eapply (v_after _ _ _ _ V), Hin, Hx.
  - intros Hx. exfalso. apply in_app_iff in Hx. destruct Hx as [Hx|Hx].
    + apply in_rev in Hx. rewrite Forall_forall in Hcb. specialize (Hcb _ Hx). discriminate.
    + exact (active_no_destr c s HI Hna Hx).
  - intros er Hx. split; [exact I|]. unfold live; cbn. rewrite Hrl.
    apply in_app_iff in Hx. destruct Hx as [Hx|Hx].
    + apply in_rev in Hx. eapply (v_exec _ _ _ _ V), Hin, Hx.
    + destruct (active_no_exec c s er HI Hna Hx).
  - split; [|exact I]. exists [], e, (rev es' ++ s_log s). rewrite Ees, rev_app_distr. auto.
  - intros Hd n Hn. exfalso. apply (v_def _ _ _ _ V) in Hn; auto.
    rewrite Ecb, Ees. intros E. destruct es'; discriminate.
Qed.

Theorem step_inv s l s' : Inv c s -> step c s l = Some s' -> Inv c s'.
Proof.
  intros HI H. destruct l as [| | | |k|n|n o|z]; cbn in H.
  - eapply step_tick; eassumption.
  - destruct (s_pc s) eqn:E; try discriminate; inversion H; apply step_destroy; try assumption; rewrite E; exact I.
  - eapply step_ctl; eassumption.
  - eapply step_ctl; eassumption.
  - destruct (s_pc s) as [|ph|ph kept rest| | | | | |] eqn:E; try discriminate.
    + destruct (tick c s) as [s1|] eqn:E1; [|discriminate].
      eapply step_visthrow; [exact HI|rewrite E; exact I|eapply step_tick; eassumption| |exact H].
      unfold tick in E1. rewrite E in E1. inversion E1; subst. apply new_start; assumption.
    + destruct (tick c s) as [s1|] eqn:E1; [|discriminate].
      eapply step_visthrow; [exact HI|rewrite E; exact I|eapply step_tick; eassumption| |exact H].
      assert (El : live s = map sl_coro (s_coros s)) by (unfold live; rewrite E; reflexivity).
      unfold tick in E1. rewrite E in E1. pose proof (suspended_top c s ph HI E) as T.
      destruct ph; inversion E1; subst; [apply top_new_main|apply top_new_drain]; assumption.
    + destruct (ctl c s true) as [s1|] eqn:E1; [|discriminate].
      eapply step_visthrow; [exact HI|rewrite E; exact I|eapply step_ctl; eassumption| |exact H].
      eapply new_ctl; eauto.
  - destruct (s_fut s n) eqn:E; try discriminate. inversion H; subst. apply step_begin; assumption.
  - destruct (s_fut s n) eqn:E; try discriminate. inversion H; subst. apply step_end; assumption.
  - inversion H; subst. apply step_clock; assumption.
Qed.

Theorem run_inv ls : forall s s', Inv c s -> run_labels c s ls = Some s' -> Inv c s'.
Proof.
  induction ls as [|l ls IH]; intros s s' HI H; cbn in H; [inversion H; subst; exact HI|].
  destruct (step c s l) as [s1|] eqn:E; [|discriminate].
  eapply IH; [|exact H]. eapply step_inv; eassumption.
Qed.

Theorem inv_reachable z s : reachable c z s -> Inv c s.
Proof. intros [ls H]. eapply run_inv; [apply inv_init|exact H]. Qed.

End Ctl.
