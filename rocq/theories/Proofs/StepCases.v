(** Case analysis of one step of an execution. *)
From Coq Require Import Lia String.
From Verif Require Import Model.Common Model.Records Model.Jobs Model.TaskSet Model.Dag
     Model.Sched Model.Exec Spec.Graph Spec.Trace
     Proofs.Sets Proofs.SchedFacts Proofs.InvalFacts Proofs.TraceFacts Proofs.ExecInv
     Proofs.ExecStep Proofs.ExecCtl.
Open Scope nat_scope.
Open Scope list_scope.

Section Cases.
Variable c : config.

(** The record a completed coroutine returns, the events it emitted after
    before_run, and the flags and resources it leaves. *)
Inductive ctl_case (s : state) : state -> Prop :=
| CC_depf ph kept sl rest n s' :
    s_pc s = Clean ph kept (sl :: rest) -> sl_coro sl = Coro n CFresh ->
    any_dep_failed (c_dag c) (s_ns s) n = true ->
    s' = complete (set_failed (set_done (emit s (EBeforeRun (s_erec s) n)) n) n) ph kept sl rest
                  (with_status (new_record c n (s_clock s)) DEPF) ->
    ctl_case s s'
| CC_skip ph kept sl rest n s' :
    s_pc s = Clean ph kept (sl :: rest) -> sl_coro sl = Coro n CFresh ->
    any_dep_failed (c_dag c) (s_ns s) n = false -> ns_inval (s_ns s n) = VALID ->
    s' = complete (set_done (emit s (EBeforeRun (s_erec s) n)) n) ph kept sl rest
                  (with_status (new_record c n (s_clock s)) SKIP) ->
    ctl_case s s'
| CC_launch ph kept sl rest n s1 s' :
    s_pc s = Clean ph kept (sl :: rest) -> sl_coro sl = Coro n CFresh ->
    any_dep_failed (c_dag c) (s_ns s) n = false -> ns_inval (s_ns s n) = INVALID ->
    s1 = set_started (emit s (EBeforeRun (s_erec s) n)) n ->
    s' = set_pc (set_fut (emit (set_used s1 (fold_left (fun u r => set_insert r u) (node_res c n) (s_used s1)))
                               (ELaunch n)) n (if deferred c then FDeferred else FPending))
                (Clean ph kept (Slot (sl_node sl) (Coro n (CWait (new_record c n (s_clock s)))) :: rest)) ->
    ctl_case s s'
| CC_begin ph kept sl rest n rec s' :
    s_pc s = Clean ph kept (sl :: rest) -> sl_coro sl = Coro n (CWait rec) -> s_fut s n = FDeferred ->
    s' = set_fut (emit s (EBegin n)) n FRunning ->
    ctl_case s s'
| CC_timeout ph kept sl rest n rec s' :
    s_pc s = Clean ph kept (sl :: rest) -> sl_coro sl = Coro n (CWait rec) ->
    s_fut s n = FPending \/ (s_fut s n = FRunning /\ deferred c = false) ->
    s' = set_pc (emit s (ETimeout n)) (Clean ph (kept ++ [Coro n (CWait rec)]) rest) ->
    ctl_case s s'
| CC_ready ph kept sl rest n rec o s1 s2 s' :
    s_pc s = Clean ph kept (sl :: rest) -> sl_coro sl = Coro n (CWait rec) -> s_fut s n = FReady o ->
    s1 = set_used (emit s (ERunLog n (rr_log (run_lambda o))))
                  (fold_left (fun u r => set_erase r u) (node_res c n) (s_used s)) ->
    s2 = (if negb (rr_retcode (run_lambda o) =? 0)%Z then set_failed s1 n else s1) ->
    s' = complete (set_done s2 n) ph kept sl rest (finish_record rec (run_lambda o) (s_clock s)) ->
    ctl_case s s'
| CC_end_main kept s1 s' :
    s_pc s = Clean PMain kept [] -> s1 = set_coros s (compact (s_coros s) kept) ->
    s' = dispatch c s1 -> ctl_case s s'
| CC_end_drain kept s1 s' :
    s_pc s = Clean PDrain kept [] -> s1 = set_coros s (compact (s_coros s) kept) ->
    s' = set_pc s1 (Suspended PDrain) -> ctl_case s s'
| CC_unwind_end e s' : s_pc s = Unwind e [] -> s' = set_pc (set_coros s []) (Failed e) -> ctl_case s s'
| CC_unwind e sl rest s' : s_pc s = Unwind e (sl :: rest) -> destroy_one s sl = true ->
    s' = set_pc s (Unwind e rest) -> ctl_case s s'
| CC_destroy_end s' : s_pc s = Destroying [] ->
    s' = set_pc (set_coros (emit s EDestroyed) []) Destroyed -> ctl_case s s'
| CC_destroy sl rest s' : s_pc s = Destroying (sl :: rest) -> destroy_one s sl = true ->
    s' = set_pc s (Destroying rest) -> ctl_case s s'.

Lemma inval_eqb_eq a b : inval_eqb a b = true <-> a = b.
Proof. destruct a, b; cbn; split; congruence. Qed.

Hypothesis Hwf : wf_dag (c_dag c).

Lemma ctl_cases s s' : Inv c s -> ctl c s true = Some s' -> ctl_case s s'.
Proof.
  intros HI E. pose proof (i_pc _ _ HI) as P. unfold pc_inv in P.
  unfold ctl in E. destruct (s_pc s) as [|ph|ph kept rest|e rest|rest| | | |] eqn:Epc; try discriminate.
  - destruct rest as [|sl rest].
    + destruct ph; inversion E; subst; [eapply CC_end_main|eapply CC_end_drain]; eauto.
    + destruct (sl_coro sl) as [n st] eqn:Esl. cbn [co_st] in E. destruct st as [|rec].
      * unfold run_first in E. rewrite Esl in E. cbn [co_node] in E.
        assert (Hi : ns_inval (s_ns s n) <> UNKNOWN).
        { destruct P as [A _]. unfold act in A.
          assert (Hid : In n (node_ids (c_dag c))).
          { eapply act_lv_ids; [exact A|]. unfold live. rewrite Epc, map_app, in_app_iff. right. left.
            rewrite Esl. reflexivity. }
          destruct (a_inv _ _ _ _ _ _ _ _ A n Hid) as [[-> _]|[-> _]]; discriminate. }
        destruct (inval_eqb (ns_inval (s_ns s n)) UNKNOWN) eqn:E1; [apply inval_eqb_eq in E1; congruence|].
        cbn zeta in E. change (s_ns (emit s (EBeforeRun (s_erec s) n))) with (s_ns s) in E.
        destruct (any_dep_failed (c_dag c) (s_ns s) n) eqn:E2; [inversion E; subst; eapply CC_depf; eauto|].
        destruct (inval_eqb (ns_inval (s_ns s n)) VALID) eqn:E3.
        -- inversion E; subst. eapply CC_skip; eauto. apply inval_eqb_eq, E3.
        -- inversion E; subst. eapply CC_launch; eauto.
           destruct (ns_inval (s_ns s n)); try reflexivity; [discriminate E3|congruence].
      * unfold run_poll in E. rewrite Esl in E. cbn [co_node] in E.
        destruct (s_fut s n) eqn:Ef; try discriminate.
        -- inversion E; subst. eapply CC_begin; eauto.
        -- inversion E; subst. eapply CC_timeout; eauto.
        -- destruct (deferred c) eqn:Ed; [discriminate|]. inversion E; subst. eapply CC_timeout; eauto.
        -- inversion E; subst. eapply CC_ready; eauto.
  - destruct rest as [|sl rest]; [inversion E; subst; eapply CC_unwind_end; eauto|].
    destruct (destroy_one s sl) eqn:Ed; inversion E; subst. eapply CC_unwind; eauto.
  - destruct rest as [|sl rest]; [inversion E; subst; eapply CC_destroy_end; eauto|].
    destruct (destroy_one s sl) eqn:Ed; inversion E; subst. eapply CC_destroy; eauto.
Qed.

(** std::async fails *)
Lemma launchfail_cases s s' : Inv c s -> ctl c s false = Some s' ->
  exists ph kept sl rest n, s_pc s = Clean ph kept (sl :: rest) /\ sl_coro sl = Coro n CFresh /\
    deferred c = false /\
    s_pc s' = Unwind (ExcLaunch n) (map (fun k => Slot (co_node k) k) kept ++ rest) /\
    s_log s' = EBeforeRun (s_erec s) n :: s_log s /\ s_coros s' = s_coros s /\ s_clock s' = s_clock s
    /\ s_fut s' = s_fut s /\ s_erec s' = s_erec s /\ s_todo s' = s_todo s.
Proof.
  intros HI E. unfold ctl in E. destruct (s_pc s) as [|ph|ph kept rest|e rest|rest| | | |] eqn:Epc; try discriminate.
  destruct rest as [|sl rest]; [discriminate|].
  destruct (sl_coro sl) as [n st] eqn:Esl. cbn [co_st] in E. destruct st as [|rec]; [|discriminate].
  unfold run_first in E. rewrite Esl in E. cbn [co_node] in E.
  destruct (inval_eqb (ns_inval (s_ns s n)) UNKNOWN); [discriminate|]. cbn zeta in E.
  destruct (any_dep_failed _ _ n); [discriminate|]. destruct (inval_eqb _ VALID); [discriminate|].
  destruct (deferred c) eqn:Ed; [discriminate|]. inversion E; subst.
  exists ph, kept, sl, rest, n. repeat split; auto.
Qed.

Lemma visthrow_cases s s1 k s' : visitor_throws k s s1 = Some s' ->
  exists es rest, s' = set_pc (emits s es) (Unwind ExcVisitor rest) /\
  (exists es2, rev (firstn (List.length (s_log s1) - List.length (s_log s)) (s_log s1)) = es ++ es2).
Proof.
  intros E. unfold visitor_throws in E.
  destruct (cut_at k _) as [es|] eqn:Ec; [|discriminate]. inversion E; subst. eexists _, _. split; [reflexivity|].
  revert Ec. generalize (rev (firstn (Datatypes.length (s_log s1) - Datatypes.length (s_log s)) (s_log s1))).
  intros l0. clear. revert k es. induction l0 as [|e l0 IH]; intros k es H; [discriminate|].
  cbn in H. destruct (is_callback e); [destruct k|].
  - inversion H. exists l0. reflexivity.
  - destruct (cut_at k l0) eqn:E; [|discriminate]. inversion H. destruct (IH _ _ E) as [es2 ->]. exists es2. reflexivity.
  - destruct (cut_at k l0) eqn:E; [|discriminate]. inversion H. destruct (IH _ _ E) as [es2 ->]. exists es2. reflexivity.
Qed.

End Cases.
