(** Every step of Model/Exec.v preserves the invariant. *)
From Coq Require Import Lia String Permutation.
From Verif Require Import Model.Common Model.Records Model.Jobs Model.TaskSet Model.Dag
     Model.Sched Model.Exec Spec.Graph Spec.Trace
     Proofs.Sets Proofs.SchedFacts Proofs.InvalFacts Proofs.TraceFacts Proofs.ExecInv.
Open Scope nat_scope.
Open Scope list_scope.

Section Step.
Variable c : config.
Let d := c_dag c.
Let ids := node_ids (c_dag c).
Hypothesis Hwf : wf_dag (c_dag c).

Let Hnd : NoDup ids := proj1 Hwf.

Lemma unfin_alive s n : Inv c s -> unfin (s_fut s n) -> live s <> [].
Proof.
  intros HI Hu E. pose proof (k_unfin _ _ _ _ (i_core _ _ HI) n Hu) as [rec H].
  rewrite E in H. destruct H.
Qed.

Lemma unfin_no_destroyed s n : Inv c s -> unfin (s_fut s n) -> ~ In EDestroyed (s_log s).
Proof.
  intros HI Hu Hd. apply (i_destr _ _ HI) in Hd. apply (unfin_alive s n HI Hu).
  pose proof (i_pc _ _ HI) as P. unfold pc_inv in P. unfold live. rewrite Hd in *.
  destruct P as [-> _]. reflexivity.
Qed.

Lemma unfin_no_exec s n : Inv c s -> unfin (s_fut s n) -> forall er, ~ In (EAfterExec er) (s_log s).
Proof.
  intros HI Hu er Hd. apply (i_exec _ _ HI) in Hd. destruct Hd as [_ Hl].
  exact (unfin_alive s n HI Hu Hl).
Qed.

Lemma step_clock s z : Inv c s -> Inv c (set_clock s z).
Proof.
  intros [H1 H2 H3 H4 H5]. destruct s; constructor; assumption.
Qed.

(** Job threads. *)
Lemma step_job s n f e :
  Inv c s -> unfin (s_fut s n) -> f <> FNone ->
  (e = EBegin n \/ exists o, e = EEnd n o) ->
  (unfin f -> deferred c = false \/ exists ph sl rest, s_pc s = Clean ph [] (sl :: rest) /\ co_node (sl_coro sl) = n) ->
  Core c (upd (s_fut s) n f) (e :: s_log s) (live s) ->
  Inv c (set_fut (emit s e) n f).
Proof.
  intros HI Hu Hf He Hdef HC.
  assert (Hq : quiet e = true) by (destruct He as [->|[o ->]]; reflexivity).
  assert (Hcb : is_callback e = false) by (destruct He as [->|[o ->]]; reflexivity).
  assert (Hfn : s_fut s n <> FNone) by (intros E; rewrite E in Hu; exact Hu).
  pose proof (unfin_alive s n HI Hu) as Hal.
  assert (Hnd' := unfin_no_destroyed s n HI Hu).
  assert (Hne' := unfin_no_exec s n HI Hu).
  pose proof (i_pc _ _ HI) as P. pose proof (i_defer _ _ HI) as D.
  assert (Hact : act c s -> act c (set_fut (emit s e) n f)).
  { intros A. unfold act in *. destruct s; cbn in *. apply act_fut; [exact Hfn|exact Hf|].
    apply act_quiet; [exact Hq|exact A]. }
  constructor.
  - destruct s; exact HC.
  - intros Hin. exfalso. cbn in Hin. destruct Hin as [->|Hin]; [discriminate|auto].
  - intros er Hin. exfalso. cbn in Hin. destruct Hin as [->|Hin]; [discriminate|]. eapply Hne', Hin.
  - unfold pc_inv in *. unfold live in Hal.
    destruct s as [pc todo ns used coros fut erec clock log]; cbn in *.
    destruct pc; cbn in *.
    + destruct P as [_ [_ [_ [-> _]]]]. destruct Hal; reflexivity.
    + destruct P as [A P]. split; [apply Hact, A|exact P].
    + destruct P as [A P]. split; [apply Hact, A|exact P].
    + destruct P as [P1 P2]. split; [|exact P2]. destruct e0; try destruct P2; cbn in *.
      * exact P1.
      * destruct P1 as [l1 [e' [l2 [-> [G1 G2]]]]]. exists (e :: l1), e', l2.
        split; [reflexivity|]. split; [exact G1|]. constructor; assumption.
    + exact I.
    + destruct P as [-> _]. destruct Hal; reflexivity.
    + destruct P as [-> _]. destruct Hal; reflexivity.
    + destruct P as [-> _]. destruct Hal; reflexivity.
    + destruct b; try contradiction; [destruct P as [-> _]|subst coros]; destruct Hal; reflexivity.
  - intros Hd m Hm. destruct s as [pc todo ns used coros fut erec clock log]; cbn in *.
    destruct (upd_cases fut n f m) as [[-> E]|[Hne E]]; rewrite E in Hm.
    + destruct (Hdef Hm) as [?|G]; [congruence|exact G].
    + apply D; assumption.
Qed.

Lemma step_begin s n :
  Inv c s -> s_fut s n = FPending -> Inv c (set_fut (emit s (EBegin n)) n FRunning).
Proof.
  intros HI Hf. assert (Hu : unfin (s_fut s n)) by (rewrite Hf; exact I).
  apply step_job; auto; try discriminate.
  - intros _. left. pose proof (k_kind _ _ _ _ (i_core _ _ HI) n) as Hk.
    destruct (deferred c); [congruence|reflexivity].
  - apply core_begin; [apply HI|auto|eapply unfin_no_destroyed; eauto|eapply unfin_no_exec; eauto].
Qed.

Lemma step_end s n o :
  Inv c s -> s_fut s n = FRunning -> Inv c (set_fut (emit s (EEnd n o)) n (FReady o)).
Proof.
  intros HI Hf. assert (Hu : unfin (s_fut s n)) by (rewrite Hf; exact I).
  apply step_job; eauto; try discriminate.
  - intros [].
  - apply core_end; [apply HI|auto|eapply unfin_no_destroyed; eauto|eapply unfin_no_exec; eauto].
Qed.

(** Destruction. *)
Lemma step_destroy s :
  Inv c s -> (match s_pc s with Created | Suspended _ | Finished | Failed _ => True | _ => False end) ->
  Inv c (set_pc s (Destroying (s_coros s))).
Proof.
  intros HI Hpc.
  assert (Hl : live (set_pc s (Destroying (s_coros s))) = live s).
  { unfold live. destruct s as [pc]; cbn. destruct pc; try destruct Hpc; reflexivity. }
  constructor.
  - rewrite Hl. destruct s; apply HI.
  - intros H. exfalso. assert (In EDestroyed (s_log s)) by (destruct s; exact H).
    apply (i_destr _ _ HI) in H0. rewrite H0 in Hpc. exact Hpc.
  - intros er H. rewrite Hl. split; [exact I|].
    assert (G : In (EAfterExec er) (s_log s)) by (destruct s; exact H).
    apply (i_exec _ _ HI) in G. apply G.
  - destruct s; exact I.
  - intros Hd n Hn. exfalso. destruct (i_defer _ _ HI Hd n) as [ph [sl [rest [E _]]]].
    + destruct s; exact Hn.
    + rewrite E in Hpc. exact Hpc.
Qed.

(** * Entering a pass of cleanup_coros *)

Lemma active_no_exec s er : Inv c s -> ~ inactive (s_pc s) -> ~ In (EAfterExec er) (s_log s).
Proof. intros HI Hn H. apply (i_exec _ _ HI) in H. tauto. Qed.

Lemma active_no_destr s : Inv c s -> ~ inactive (s_pc s) -> ~ In EDestroyed (s_log s).
Proof. intros HI Hn H. apply (i_destr _ _ HI) in H. rewrite H in Hn. apply Hn. exact I. Qed.

(** The state at the top of one of the loops: everything known, pc not set yet. *)
Record Top (s : state) : Prop := {
  t_core : Core c (s_fut s) (s_log s) (map sl_coro (s_coros s));
  t_act : Act c (s_todo s) (s_ns s) (s_used s) (map sl_coro (s_coros s)) (s_fut s) (s_erec s) (s_log s);
  t_nodestr : ~ In EDestroyed (s_log s);
  t_noexec : forall er, ~ In (EAfterExec er) (s_log s);
  t_ids : forall sl, In sl (s_coros s) -> In (sl_node sl) ids;
  t_slots : c_threads c <= 1 -> List.length (s_coros s) <= 1 /\
            forall sl, In sl (s_coros s) -> sl_node sl = co_node (sl_coro sl);
  t_defer : deferred c = true -> forall k, In k (map sl_coro (s_coros s)) -> ~ is_wait k
}.

Lemma top_defer_unfin s n : Top s -> deferred c = true -> ~ unfin (s_fut s n).
Proof.
  intros T Hd Hu. pose proof (k_unfin _ _ _ _ (t_core _ T) n Hu) as [rec H].
  apply (t_defer _ T Hd _ H). exists rec. reflexivity.
Qed.

Lemma single {A} (l : list A) x y : List.length l <= 1 -> In x l -> In y l -> x = y.
Proof.
  destruct l as [|a [|b l]]; cbn; intros H; [tauto| |lia]. intros [<-|[]] [<-|[]]. reflexivity.
Qed.

Lemma top_slots s :
  Top s -> c_threads c <= 1 ->
  forall sl k, In sl (s_coros s) -> In k (map sl_coro (s_coros s)) -> sl_node sl = co_node k.
Proof.
  intros T H1 sl k Hs Hk. destruct (t_slots _ T H1) as [Hl Hn].
  apply in_map_iff in Hk. destruct Hk as [sl' [<- Hs']].
  rewrite (single _ sl sl' Hl Hs Hs'). apply Hn, Hs'.
Qed.

(** entering the loop with an already quiet log *)
Lemma top_clean s ph :
  Top s -> (ph = PDrain -> s_todo s = []) -> (ph = PMain -> s_todo s <> []) ->
  Inv c (set_pc s (Clean ph [] (s_coros s))).
Proof.
  intros T H1 H2. constructor.
  - destruct s; apply T.
  - intros H. exfalso. apply (t_nodestr _ T). destruct s; exact H.
  - intros er H. exfalso. apply (t_noexec _ T er). destruct s; exact H.
  - unfold pc_inv, slots_ok, act, live. pose proof (top_slots _ T) as TS.
    destruct s as [pc todo ns used coros fut erec clock log]; cbn in *.
    split; [apply T|]. split; [|split; [|split; [|split; [|split]]]].
    + split; [apply T|]. split; [apply T|]. intros Ht. destruct (t_slots _ T Ht) as [G1 G2].
      cbn in *. split; [exact G1|]. split; [|exact G2]. intros sl k Hs Hk. apply TS; assumption.
    + intros k [].
    + lia.
    + exact H1.
    + exact H2.
    + reflexivity.
  - intros Hd n Hn. exfalso. apply (top_defer_unfin s n T Hd). destruct s; exact Hn.
Qed.

Lemma top_drain s : Top s -> s_todo s = [] -> Inv c (drain_top s).
Proof.
  intros T Ht. unfold drain_top.
  destruct (s_coros s) as [|sl cs] eqn:Ec.
  - (* finished *)
    assert (Hev : ev_ok c (s_log s) (EAfterExec (s_erec s))).
    { split; [|split; [apply T|intros er H; destruct (t_noexec _ T er H)]].
      cbn. split; [apply (t_act _ T)|]. intros n Hn.
      eapply act_where in Hn; [|apply (t_act _ T)]. rewrite Ht, Ec in Hn.
      destruct Hn as [[]|[[]|Hn]]. eapply act_recorded; [apply (t_act _ T)|exact Hn]. }
    assert (HC : Core c (s_fut s) (EAfterExec (s_erec s) :: s_log s) []).
    { pose proof (t_core _ T) as K. rewrite Ec in K. apply core_emit; auto. discriminate. }
    destruct s as [pc todo ns used coros fut erec clock log]; cbn in *. subst coros todo.
    constructor; cbn.
    + exact HC.
    + intros [H|H]; [discriminate|]. destruct (t_nodestr _ T H).
    + auto.
    + split; [reflexivity|]. eauto.
    + intros Hd n Hn. pose proof (k_unfin _ _ _ _ HC n Hn) as [? []]. 
  - rewrite <- Ec. apply top_clean; [exact T|auto|discriminate].
Qed.

Lemma top_emit_tick s : Top s -> s_todo s <> [] -> Top (emit s (EOnTick (s_erec s))).
Proof.
  intros T Ht.
  assert (Hev : ev_ok c (s_log s) (EOnTick (s_erec s))).
  { split; [|split; [apply T|intros er H; destruct (t_noexec _ T er H)]].
    cbn. split; [apply (t_act _ T)|]. split; [apply (t_act _ T)|].
    destruct (s_todo s) as [|n l] eqn:E; [congruence|]. exists n.
    assert (Hin : In n (s_todo s)) by (rewrite E; left; reflexivity).
    split.
    - eapply act_where; [apply (t_act _ T)|]. auto.
    - eapply (a_idle _ _ _ _ _ _ _ _ (t_act _ T)). auto. }
  destruct s as [pc todo ns used coros fut erec clock log]; cbn in *.
  constructor; cbn; try apply T.
  - apply core_emit; [apply T|exact Hev|reflexivity|discriminate].
  - apply act_quiet; [reflexivity|apply T].
  - intros [H|H]; [discriminate|]. exact (t_nodestr _ T H).
  - intros er [H|H]; [discriminate|]. exact (t_noexec _ T er H).
Qed.

Lemma top_main s : Top s -> Inv c (main_top s).
Proof.
  intros T. unfold main_top. destruct (s_todo s) as [|n l] eqn:E.
  - apply top_drain; assumption.
  - assert (T' : Top (emit s (EOnTick (s_erec s)))) by (apply top_emit_tick; [exact T|congruence]).
    assert (Inv c (set_pc (emit s (EOnTick (s_erec s)))
                          (Clean PMain [] (s_coros (emit s (EOnTick (s_erec s))))))) as G.
    { apply top_clean; [exact T'|discriminate|]. destruct s; cbn in *. congruence. }
    destruct s; exact G.
Qed.

Lemma suspended_top s ph : Inv c s -> s_pc s = Suspended ph -> Top s.
Proof.
  intros HI E. pose proof (i_pc _ _ HI) as P. unfold pc_inv in P. rewrite E in P.
  destruct P as [A [[S1 [S2 S3]] [P1 P2]]].
  assert (El : live s = map sl_coro (s_coros s)) by (unfold live; rewrite E; reflexivity).
  unfold act in A. rewrite El in *.
  constructor.
  - rewrite <- El. apply HI.
  - exact A.
  - apply active_no_destr; [exact HI|rewrite E; auto].
  - intros er. apply active_no_exec; [exact HI|rewrite E; auto].
  - exact S1.
  - intros Ht. destruct (S3 Ht) as [G1 [G2 G3]]. split; [exact G1|exact G3].
  - exact P2.
Qed.


(** * Start-up *)

Definition set_log (s : state) (log : list event) : state :=
  State (s_pc s) (s_todo s) (s_ns s) (s_used s) (s_coros s) (s_fut s) (s_erec s) (s_clock s) log.

Ltac simp_st :=
  cbv beta iota zeta delta
      [set_pc set_todo set_ns set_used set_coros set_fut set_erec set_clock emit set_log
       s_pc s_todo s_ns s_used s_coros s_fut s_erec s_clock s_log er_stats er_total er_runs erec0].

Lemma emits_eq es : forall s, emits s es = set_log s (rev es ++ s_log s).
Proof.
  unfold emits. induction es as [|e es IH]; intros s; cbn [fold_left].
  - destruct s; reflexivity.
  - rewrite IH. destruct s; cbn. rewrite <- app_assoc. reflexivity.
Qed.

Lemma startup_no log : Forall (fun e => is_startup e = true) log ->
  ~ In EDestroyed log /\ forall er, ~ In (EAfterExec er) log.
Proof.
  intros H. rewrite Forall_forall in H. split; [intros Hin|intros er Hin]; specialize (H _ Hin); discriminate.
Qed.

Lemma jobinv_startup log : Forall (fun e => is_jobinv e = true) log -> Forall (fun e => is_startup e = true) log.
Proof. apply Forall_impl. intros e; destruct e; auto. Qed.
Lemma enque_jobinv log : Forall (fun e => is_enque e = true) log -> Forall (fun e => is_jobinv e = true) log.
Proof. apply Forall_impl. intros e; destruct e; auto; discriminate. Qed.

Lemma startup_ev log e : Forall (fun e => is_startup e = true) log -> ev_cond c log e -> ev_ok c log e.
Proof.
  intros H He. apply startup_no in H. destruct H as [H1 H2]. split; [exact He|]. split; [exact H1|].
  intros er Hin. destruct (H2 er Hin).
Qed.

Lemma log_enque l : NoDup l -> incl l ids ->
  log_ok c (rev (map EEnque l)) /\ Forall (fun e => is_enque e = true) (rev (map EEnque l))
  /\ forall n, In (EEnque n) (rev (map EEnque l)) <-> In n l.
Proof.
  intros Hl Hi.
  assert (HF : Forall (fun e => is_enque e = true) (rev (map EEnque l))).
  { apply Forall_forall. intros e He. apply in_rev in He. apply in_map_iff in He.
    destruct He as [n [<- _]]. reflexivity. }
  assert (HIn : forall l n, In (EEnque n) (rev (map EEnque l)) <-> In n l).
  { clear. intros l n. rewrite <- in_rev, in_map_iff. split; [intros [m [E H]]; congruence|eauto]. }
  split; [|split; [exact HF|apply HIn]].
  induction l as [|n l IH] using rev_ind; [exact I|].
  rewrite map_app, rev_app_distr in *. cbn in *. inversion HF as [|? ? _ HF']; subst.
  assert (Hl' : NoDup l /\ ~ In n l).
  { apply NoDup_app_iff in Hl. destruct Hl as [G1 [_ G2]]. split; [exact G1|].
    intros H. apply (G2 n H). left; reflexivity. }
  split.
  - apply startup_ev; [apply jobinv_startup, enque_jobinv, HF'|]. cbn. split; [|split].
    + apply Hi, in_app_iff. right; left; reflexivity.
    + rewrite HIn. tauto.
    + exact HF'.
  - apply IH; [tauto|intros x Hx; apply Hi, in_app_iff; auto|exact HF'].
Qed.

Definition log1 : list event := rev (map EEnque ids).
Definition log2 (pre : list nid) : list event :=
  rev (map inval_to_event (flat_map (ans_event (c_inval c)) pre)) ++ log1.

Lemma log1_ok : log_ok c log1 /\ Forall (fun e => is_enque e = true) log1
                /\ forall n, In n ids -> In (EEnque n) log1.
Proof.
  destruct (log_enque ids Hnd (incl_refl _)) as [H1 [H2 H3]]. split; [exact H1|]. split; [exact H2|].
  intros n Hn. apply H3, Hn.
Qed.

Lemma log2_ok pre : acyclic d -> NoDup pre -> incl pre ids ->
  (forall n, In n pre -> answers (node_has_job c) (c_inval c) n) ->
  log_ok c (log2 pre) /\ Forall (fun e => is_jobinv e = true) (log2 pre)
  /\ (forall n, In n ids -> In (EEnque n) (log2 pre))
  /\ (forall n, (exists v t, In (EInval n v t) (log2 pre)) <-> In n pre)
  /\ (forall n, In (EAsk n) (log2 pre) <-> In n pre).
Proof.
  intros Hac. destruct log1_ok as [H1 [H2 H3]].
  induction pre as [|n pre IH] using rev_ind; intros Hp Hi Ha.
  - unfold log2; cbn. split; [exact H1|]. split; [apply enque_jobinv, H2|]. split; [exact H3|].
    rewrite Forall_forall in H2. split; intros n; (split; [|tauto]).
    + intros [v [t H]]. specialize (H2 _ H). discriminate.
    + intros H. specialize (H2 _ H). discriminate.
  - assert (Hp' : NoDup pre /\ ~ In n pre).
    { apply NoDup_app_iff in Hp. destruct Hp as [G1 [_ G2]]. split; [exact G1|].
      intros H. apply (G2 n H). left; reflexivity. }
    destruct Hp' as [Hp' Hn].
    destruct IH as [G1 [G2 [G3 [G4 G5]]]];
      [exact Hp'|intros x Hx; apply Hi, in_app_iff; auto|intros x Hx; apply Ha, in_app_iff; auto|].
    destruct (Ha n) as [Hjob Hans]; [apply in_app_iff; right; left; reflexivity|].
    destruct (c_inval c n) as [b t|] eqn:Eb; [|congruence].
    assert (E : log2 (pre ++ [n]) = EInval n (if b then INVALID else VALID) t :: EAsk n :: log2 pre).
    { unfold log2. rewrite flat_map_app, map_app, rev_app_distr. cbn [flat_map app]. rewrite app_nil_r.
      unfold ans_event at 1. rewrite Eb. reflexivity. }
    rewrite E.
    assert (HA : ev_ok c (log2 pre) (EAsk n)).
    { apply startup_ev; [apply jobinv_startup, G2|].
      cbn. split; [apply Hi, in_app_iff; right; left; reflexivity|]. split; [|split; [|split; [|split]]].
      - intros H. apply Hn, G5, H.
      - exact G2.
      - split; [exact G3|exact Hac].
      - intros m Hm. apply G4, G5, Hm.
      - exact Hjob. }
    assert (G2' : Forall (fun e => is_jobinv e = true) (EAsk n :: log2 pre)) by (constructor; [reflexivity|exact G2]).
    split; [|split; [|split; [|split]]].
    + split; [|split; [exact HA|exact G1]]. apply startup_ev; [apply jobinv_startup, G2'|].
      cbn. split; [apply Hi, in_app_iff; right; left; reflexivity|]. split; [|split; [|split; [|split]]].
      * intros v' t' [H|H]; [discriminate|]. apply Hn, G4. eauto.
      * exact G2'.
      * split; [|exact Hac]. intros m Hm. right. apply G3, Hm.
      * eauto.
      * eauto.
    + constructor; [reflexivity|exact G2'].
    + intros m Hm. right. right. apply G3, Hm.
    + intros m. rewrite in_app_iff. cbn. split.
      * intros [v [t' [H|[H|H]]]]; [inversion H; auto|discriminate|]. left. apply G4. eauto.
      * intros [H|[->|[]]]; [|eauto]. apply G4 in H. destruct H as [v [t' H]]. eauto.
    + intros m. rewrite in_app_iff. cbn. split.
      * intros [H|[H|H]]; [discriminate|inversion H; auto|]. left. apply G5, H.
      * intros [H|[->|[]]]; [|auto]. right. right. apply G5, H.
Qed.

(** The job of [n] is asked and throws. *)
Lemma log2_throw pre n : acyclic d -> NoDup (pre ++ [n]) -> incl (pre ++ [n]) ids ->
  (forall x, In x pre -> answers (node_has_job c) (c_inval c) x) -> node_has_job c n = true ->
  log_ok c (EAsk n :: log2 pre) /\ Forall (fun e => is_jobinv e = true) (EAsk n :: log2 pre).
Proof.
  intros Hac Hp Hi Ha Hj. apply NoDup_app_iff in Hp. destruct Hp as [Hp [_ Hn]].
  destruct (log2_ok pre Hac Hp) as [G1 [G2 [G3 [G4 G5]]]];
    [intros x Hx; apply Hi, in_app_iff; auto|exact Ha|].
  split; [|constructor; [reflexivity|exact G2]]. split; [|exact G1].
  apply startup_ev; [apply jobinv_startup, G2|].
  cbn. split; [apply Hi, in_app_iff; right; left; reflexivity|]. split; [|split; [|split; [|split]]].
  - intros H. apply (Hn n); [apply G5, H|left; reflexivity].
  - exact G2.
  - split; [exact G3|exact Hac].
  - intros m Hm. apply G4, G5, Hm.
  - exact Hj.
Qed.

Definition log3 (evd : list inval_event) (pre : list nid) : list event :=
  rev (map inval_to_event evd) ++ log2 pre.

Lemma dep_reports_app n m a b : dep_reports n m (a ++ b) = dep_reports n m a + dep_reports n m b.
Proof. unfold dep_reports. rewrite filter_app, app_length. reflexivity. Qed.

Lemma dep_reports_log3 n m evd todo : dep_reports n m (log3 evd todo) = dep_count n m evd.
Proof.
  assert (F : forall f (l : list event), List.length (filter f (rev l)) = List.length (filter f l)).
  { intros f l. induction l as [|x l IH]; [reflexivity|]. cbn. rewrite filter_app, app_length, IH.
    cbn. destruct (f x); cbn; lia. }
  assert (Z : forall l, (forall e, In e l -> is_jobinv e = true) -> dep_reports n m l = 0).
  { intros l. unfold dep_reports. induction l as [|x l IH]; intros H; [reflexivity|]. cbn.
    pose proof (H x (or_introl eq_refl)) as Hx. specialize (IH (fun e He => H e (or_intror He))).
    destruct x; try discriminate; exact IH. }
  unfold log3. rewrite dep_reports_app.
  replace (dep_reports n m (log2 todo)) with 0.
  - unfold dep_reports. rewrite F, Nat.add_0_r. unfold dep_count.
    induction evd as [|x evd IH]; [reflexivity|]. cbn [map filter].
    destruct x; cbn [inval_to_event is_dep]; try exact IH.
    destruct ((n0 =? n) && (m0 =? m)); cbn [List.length]; rewrite IH; reflexivity.
  - symmetry. apply Z. intros e He. unfold log2 in He. apply in_app_iff in He. destruct He as [He|He].
    + apply in_rev, in_map_iff in He. destruct He as [x [<- Hx]]. apply in_flat_map in Hx. destruct Hx as [y [_ Hx]].
      unfold ans_event in Hx. destruct (c_inval c y); cbn in Hx; destruct Hx as [<-|Hx]; try reflexivity;
        [destruct Hx as [<-|[]]; reflexivity|destruct Hx].
    + unfold log1 in He. apply in_rev, in_map_iff in He. destruct He as [x [<- _]]. reflexivity.
Qed.

Lemma log3_ok todo evd : acyclic d -> NoDup todo -> (forall x, In x todo <-> In x ids) ->
  (forall n, In n todo -> answers (node_has_job c) (c_inval c) n) ->
  (forall a e b, evd = a ++ e :: b -> dep_ok c a e) ->
  log_ok c (log3 evd todo) /\ Forall (fun e => is_startup e = true) (log3 evd todo)
  /\ asked c (log3 evd todo).
Proof.
  intros Hac Ht Hids Ha.
  destruct (log2_ok todo) as [G1 [G2 [G3 [G4 G5]]]]; [exact Hac|exact Ht|intros x Hx; apply Hids, Hx|exact Ha|].
  induction evd as [|e evd IH] using rev_ind; intros He.
  - unfold log3; cbn. split; [exact G1|]. split; [apply jobinv_startup, G2|].
    intros n Hn. split; [apply G3, Hn|apply G4, Hids, Hn].
  - destruct IH as [I1 [I2 I3]].
    { intros a x b Hx. apply (He a x (b ++ [e])). rewrite Hx, <- app_assoc. reflexivity. }
    assert (E : log3 (evd ++ [e]) todo = inval_to_event e :: log3 evd todo).
    { unfold log3. rewrite map_app, rev_app_distr. reflexivity. }
    rewrite E. destruct (He evd e [] eq_refl) as [n [m [-> [E1 [E2 [E3 [E4 [E5 E6]]]]]]]].
    cbn [inval_to_event].
    assert (Hm : In m ids) by apply (proj2 Hwf _ E1).
    split; [|split].
    + split; [|exact I1]. apply startup_ev; [exact I2|]. cbn [ev_cond].
      split; [exact E1|]. split; [exact E2|]. split; [exact E3|]. split; [exact E4|]. split; [exact I2|].
      split; [exact I3|]. split.
      * destruct E5 as [[t Ht0]|[p Hp]].
        -- left. destruct (I3 m Hm) as [_ [v [t' H]]]. 
           assert (Hin := H). apply in_split in H. destruct H as [l1 [l2 El]].
           rewrite El in I1. apply log_ok_app in I1. destruct I1 as [[Hc _] _]. cbn [ev_cond] in Hc. destruct Hc as [_ [_ [_ [_ [[b [Hb Hv]] _]]]]]. rewrite Ht0 in Hb. inversion Hb; subst.
           eauto.
        -- right. exists p. unfold log3. apply in_app_iff. left. apply -> in_rev. apply in_map_iff.
           exists (IvDep m p). auto.
      * fold d in E6. rewrite dep_reports_log3. exact E6.
    + constructor; [reflexivity|exact I2].
    + apply asked_mono, I3.
Qed.

Lemma core_none log :
  log_ok c log -> Forall (fun e => job_event e = false) log -> Core c (fun _ => FNone) log [].
Proof.
  intros H1 H2.
  assert (H2' := H2). rewrite Forall_forall in H2'.
  assert (Hr : run_l log = []).
  { clear -H2. induction H2 as [|e log He _ IH]; [reflexivity|]. rewrite track_neutral by exact He. exact IH. }
  constructor; try (cbn; tauto).
  - intros n. cbn. repeat split; intros; intros Hin; specialize (H2' _ Hin); discriminate.
  - cbn. lia.
  - rewrite Hr. constructor.
  - intros n. rewrite Hr. split; [intros []|discriminate].
  - intros n. destruct (deferred c); discriminate.
Qed.

Lemma startup_nojob log : Forall (fun e => is_startup e = true) log -> Forall (fun e => job_event e = false) log.
Proof. apply Forall_impl. intros e; destruct e; auto; discriminate. Qed.

Lemma startup_recs log : Forall (fun e => is_startup e = true) log -> recs log = [].
Proof.
  intros H. induction H as [|e log He _ IH]; [reflexivity|].
  rewrite recs_other; [exact IH|]. destruct e; try discriminate; reflexivity.
Qed.

(** What the first resumption does, before it enters the main loop. *)
Inductive start_res : state -> state -> Prop :=
| SR_cycle s s' cyc : s_log s' = ECycle cyc :: log1 -> s_pc s' = Failed ExcCycle ->
    is_cycle d cyc -> start_res s s'
| SR_null s s' n pre post : s_pc s' = Bad (BadNullJob n) -> s_log s' = log2 pre ->
    NoDup (pre ++ n :: post) -> (forall x, In x (pre ++ n :: post) <-> In x ids) ->
    node_has_job c n = false -> (forall x, In x pre -> answers (node_has_job c) (c_inval c) x) ->
    acyclic d -> start_res s s'
| SR_throw s s' n pre post : s_pc s' = Failed (ExcInval n) -> s_log s' = EAsk n :: log2 pre ->
    NoDup (pre ++ n :: post) -> (forall x, In x (pre ++ n :: post) <-> In x ids) ->
    c_inval c n = IvThrow -> (forall x, In x pre -> answers (node_has_job c) (c_inval c) x) ->
    acyclic d -> node_has_job c n = true -> start_res s s'
| SR_main s s' s1 evd todo : s' = main_top s1 -> Top s1 -> s_log s1 = log3 evd todo ->
    s_pc s1 = Created -> s_todo s1 = todo -> sorted todo -> s_coros s1 = [] ->
    s_clock s1 = s_clock s ->
    (forall n, In n todo <-> In n ids) ->
    (forall n, In n todo -> answers (node_has_job c) (c_inval c) n) ->
    (forall a e b, evd = a ++ e :: b -> dep_ok c a e) ->
    (forall n, In n ids -> Invalidated c n -> ~ job_invalidated c n ->
        exists m, In (IvDep n m) evd) ->
    acyclic d -> start_res s s'.

Definition todo0 : list nid := fold_left (fun l n => set_insert n l) ids [].

Lemma todo0_In x : In x todo0 <-> In x ids.
Proof. unfold todo0. rewrite fold_insert_In. cbn. tauto. Qed.
Lemma todo0_sorted : sorted todo0.
Proof. apply fold_insert_sorted. constructor. Qed.

Lemma start_spec s : Inv c s -> s_pc s = Created ->
  start_res s (start c s) /\ s_fut (start c s) = s_fut s /\ s_coros (start c s) = []
  /\ s_clock (start c s) = s_clock s.
Proof.
  intros HI Epc.
  pose proof (i_pc _ _ HI) as P. unfold pc_inv in P. rewrite Epc in P.
  destruct s as [pc todo ns used coros fut erec clock log]; cbn in *.
  destruct P as [-> [-> [-> [-> [-> [-> ->]]]]]]. subst pc.
  unfold start. cbn [s_erec s_todo set_todo].
  fold ids. fold todo0.
  rewrite !emits_eq. simp_st. rewrite app_nil_r. fold log1.
  assert (Hcl : forall e, In e (d_edges (c_dag c)) -> In (e_tgt e) (node_ids (c_dag c))) by (intros e He; apply Hwf, He).
  assert (Hincl : incl todo0 (node_ids (c_dag c))) by (intros x Hx; apply todo0_In, Hx).
  assert (Hnt : NoDup todo0) by apply sorted_NoDup, todo0_sorted.
  destruct (has_cycle_spec (c_dag c) (fuel_of c) todo0 Hcl Hincl) as [[cyc [E Hc]]|[E Hacc]].
  { unfold fuel_of, node_ids. rewrite map_length. lia. }
  - rewrite E. cbn [map]. rewrite emits_eq. cbn. split; [|repeat split].
    eapply SR_cycle; [reflexivity|reflexivity|exact Hc].
  - rewrite E. cbn [map emits fold_left]. simp_st.
    assert (Hac : acyclic (c_dag c)).
    { apply all_acc_acyclic; [exact Hwf|]. intros n Hn. apply Hacc, todo0_In, Hn. }
    simp_st.
    destruct (inval_pass (node_has_job c) (c_inval c) todo0 (fun _ => nstate0) [] []) as [ns' prop ev|n ev|n ev] eqn:EP.
    + destruct (propagate_spec c todo0 Hwf Hnt todo0_In ns' prop ev EP) as
        [Ha [-> [ns2 [evd [E2 [F1 [F2 [F3 F4]]]]]]]].
      rewrite E2. rewrite emits_eq. simp_st.
      assert (Elog : rev (map inval_to_event (flat_map (ans_event (c_inval c)) todo0 ++ evd)) ++ log1 = log3 evd todo0).
      { unfold log3, log2. rewrite map_app, rev_app_distr, app_assoc. reflexivity. }
      rewrite Elog.
      destruct (log3_ok todo0 evd Hac Hnt todo0_In Ha F3) as [L1 [L2 L3]].
      assert (HC : Core c (fun _ => FNone) (log3 evd todo0) []).
      { apply core_none; [exact L1|apply startup_nojob, L2]. }
      set (s1 := State Created todo0 ns2 [] [] (fun _ => FNone)
                       (ExecRecord stats0 (List.length todo0) []) clock (log3 evd todo0)).
      assert (T : Top s1).
      { destruct (startup_no _ L2) as [N1 N2].
        constructor; cbn;
          [exact HC| |exact N1|exact N2|intros sl []|intros _; split; [lia|intros sl []]|intros _ k []].
        assert (Hbef : forall n, ~ before_l (log3 evd todo0) n).
        { intros n [er H]. rewrite Forall_forall in L2. specialize (L2 _ H). discriminate. }
        constructor; cbn.
        - intros n Hn. apply Hacc, todo0_In, Hn.
        - rewrite app_nil_r. apply NoDup_Permutation; [exact Hnd|exact Hnt|]. intros x. symmetry. apply todo0_In.
        - apply todo0_sorted.
        - intros l1 k l2 H. destruct l1; discriminate.
        - exact F2.
        - intros n _. split; [apply F1|]. split; [reflexivity|apply Hbef].
        - intros n [].
        - intros n r [].
        - intros r [].
        - intros r. split; [intros []|intros [n [rec [[] _]]]].
        - intros n m r r' [].
        - rewrite (startup_recs _ L2). split; [reflexivity|]. split; [|intros []; reflexivity].
          cbn. apply Permutation_length. apply NoDup_Permutation; [exact Hnt|exact Hnd|]. apply todo0_In.
        - split; [exact L3|]. intros n G1 G2 G3. destruct (F4 n G1 G2 G3) as [m Hm]. exists m.
          unfold log3. apply in_app_iff. left. apply -> in_rev. apply in_map_iff.
          exists (IvDep n m). auto. }
      split; [|].
      * eapply SR_main with (s1 := s1) (evd := evd) (todo := todo0); auto; try reflexivity.
        -- apply todo0_sorted.
        -- apply todo0_In.
      * assert (Hm : s_fut (main_top s1) = s_fut s1 /\ s_coros (main_top s1) = s_coros s1 /\ s_clock (main_top s1) = s_clock s1).
        { unfold main_top, drain_top. cbn. destruct todo0; cbn; auto. }
        destruct Hm as [G1 [G2 G3]]. split; [exact G1|]. split; [exact G2|exact G3].
    + assert (HP : pass_post (node_has_job c) (c_inval c) todo0 (fun _ => nstate0) [] [] (PassNull n ev))
        by (rewrite <- EP; apply inval_pass_spec, Hnt).
      cbn [pass_post] in HP. destruct HP as [pre [post [Et [G1 [G2 ->]]]]].
      rewrite emits_eq. cbn. split; [|repeat split].
      eapply SR_null with (n := n) (pre := pre) (post := post); auto.
      * rewrite <- Et. exact Hnt.
      * intros x. rewrite <- Et. apply todo0_In.
    + assert (HP : pass_post (node_has_job c) (c_inval c) todo0 (fun _ => nstate0) [] [] (PassThrow n ev))
        by (rewrite <- EP; apply inval_pass_spec, Hnt).
      cbn [pass_post] in HP. destruct HP as [pre [post [Et [G0 [G1 [G2 ->]]]]]].
      rewrite emits_eq. cbn. split; [|repeat split].
      eapply SR_throw with (n := n) (pre := pre) (post := post); auto.
      * cbn. rewrite map_app, rev_app_distr. reflexivity.
      * rewrite <- Et. exact Hnt.
      * intros x. rewrite <- Et. apply todo0_In.
Qed.

Lemma step_start s : Inv c s -> s_pc s = Created -> Inv c (start c s).
Proof.
  intros HI Epc. destruct (start_spec s HI Epc) as [R [Ef [Ec Ecl]]].
  assert (Hfn : s_fut s = fun _ => FNone).
  { pose proof (i_pc _ _ HI) as P. unfold pc_inv in P. rewrite Epc in P. apply P. }
  inversion R as [? ? cyc L1 L2 L3|? ? n pre post L2 L1 L3 L4 L5 L6 L7|? ? n pre post L2 L1 L3 L4 L5 L6 L7 L8
                 |? ? s1 evd todo E T]; subst.
  - destruct log1_ok as [G1 [G2 G3]].
    assert (HS : Forall (fun e => is_startup e = true) log1) by apply jobinv_startup, enque_jobinv, G2.
    destruct (startup_no _ HS) as [N1 N2].
    assert (HC : Core c (s_fut (start c s)) (s_log (start c s)) []).
    { rewrite Ef, Hfn, L1. apply core_none.
      - split; [|exact G1]. apply startup_ev; [exact HS|]. cbn. auto.
      - constructor; [reflexivity|]. apply startup_nojob, HS. }
    constructor.
    + unfold live. rewrite L2, Ec. exact HC.
    + rewrite L1. intros [H|H]; [discriminate|]. destruct (N1 H).
    + rewrite L1. intros er [H|H]; [discriminate|]. destruct (N2 er H).
    + unfold pc_inv. rewrite L2. split; [exact Ec|]. cbn. eauto.
    + intros Hd n Hn. rewrite Ef, Hfn in Hn. destruct Hn.
  - destruct (log2_ok pre) as [G1 [G2 [G3 [G4 G5]]]].
    { exact L7. }
    { apply NoDup_app_iff in L3. apply L3. }
    { intros x Hx. apply L4, in_app_iff. auto. }
    { exact L6. }
    assert (HS : Forall (fun e => is_startup e = true) (log2 pre)) by apply jobinv_startup, G2.
    destruct (startup_no _ HS) as [N1 N2].
    constructor.
    + unfold live. rewrite L2, Ec, Ef, Hfn, L1. apply core_none; [exact G1|apply startup_nojob, HS].
    + rewrite L1. intros H. destruct (N1 H).
    + rewrite L1. intros er H. destruct (N2 er H).
    + unfold pc_inv. rewrite L2, L1. split; [exact Ec|]. split; [|auto].
      apply L4, in_mid. auto.
    + intros Hd m Hm. rewrite Ef, Hfn in Hm. destruct Hm.
  - destruct (log2_throw pre n) as [G1 G2].
    { exact L7. }
    { replace (pre ++ n :: post) with ((pre ++ [n]) ++ post) in L3 by (rewrite <- app_assoc; reflexivity).
      apply NoDup_app_iff in L3. apply L3. }
    { intros x Hx. apply L4, in_mid. apply in_app_iff in Hx. cbn in Hx. intuition. }
    { exact L6. }
    { exact L8. }
    assert (HS : Forall (fun e => is_startup e = true) (EAsk n :: log2 pre)) by apply jobinv_startup, G2.
    destruct (startup_no _ HS) as [N1 N2].
    constructor.
    + unfold live. rewrite L2, Ec, Ef, Hfn, L1. apply core_none; [exact G1|apply startup_nojob, HS].
    + rewrite L1. intros H. destruct (N1 H).
    + rewrite L1. intros er H. destruct (N2 er H).
    + unfold pc_inv. rewrite L2, L1. split; [exact Ec|]. cbn [exc_ok]. split; [|split; [exact L5|eauto]].
      apply L4, in_mid. auto.
    + intros Hd m Hm. rewrite Ef, Hfn in Hm. destruct Hm.
  - rewrite E. apply top_main, T.
Qed.

Lemma step_tick s s' : Inv c s -> tick c s = Some s' -> Inv c s'.
Proof.
  intros HI H. unfold tick in H. destruct (s_pc s) as [|[]| | | | | | |] eqn:E; try discriminate;
    inversion H; subst; clear H.
  - apply step_start; assumption.
  - apply top_main. eapply suspended_top; eassumption.
  - apply top_drain; [eapply suspended_top; eassumption|].
    pose proof (i_pc _ _ HI) as P. unfold pc_inv in P. rewrite E in P.
    destruct P as [_ [_ [P _]]]. apply P. reflexivity.
  - pose proof (i_pc _ _ HI) as P. unfold pc_inv in P. rewrite E in P.
    destruct P as [P1 P2]. pose proof (i_core _ _ HI) as K. unfold live in K. rewrite E, P1 in K. cbn in K.
    constructor.
    + unfold live. destruct s; cbn in *. subst. exact K.
    + intros Hin. apply (i_destr _ _ HI) in Hin. congruence.
    + intros er Hin. split; [exact I|]. unfold live. destruct s; cbn in *. subst. reflexivity.
    + unfold pc_inv. destruct s; cbn in *. assumption.
    + intros Hd n Hn. pose proof (k_unfin _ _ _ _ K n Hn) as [? []].
  - pose proof (i_pc _ _ HI) as P. unfold pc_inv in P. rewrite E in P.
    destruct P as [P1 P2]. pose proof (i_core _ _ HI) as K. unfold live in K. rewrite E, P1 in K. cbn in K.
    constructor.
    + unfold live. destruct s; cbn in *. subst. exact K.
    + intros Hin. apply (i_destr _ _ HI) in Hin. congruence.
    + intros er Hin. split; [exact I|]. unfold live. destruct s; cbn in *. subst. reflexivity.
    + unfold pc_inv. destruct s; cbn in *. assumption.
    + intros Hd n Hn. pose proof (k_unfin _ _ _ _ K n Hn) as [? []].
Qed.


(** * Inside a pass of cleanup_coros *)

Section Pass.
Variables (s : state) (ph : phase) (kept : list coro) (sl : slot) (rest : list slot).
Hypothesis HI : Inv c s.
Hypothesis Epc : s_pc s = Clean ph kept (sl :: rest).
Let n := co_node (sl_coro sl).

Lemma pass_live : live s = kept ++ sl_coro sl :: map sl_coro rest.
Proof. unfold live. rewrite Epc. reflexivity. Qed.

Lemma pass_pc : act c s /\ slots_ok c s (sl :: rest)
      /\ (forall k, In k kept -> is_wait k)
      /\ List.length kept + S (List.length rest) <= List.length (s_coros s)
      /\ (ph = PDrain -> s_todo s = []) /\ (ph = PMain -> s_todo s <> [])
      /\ (deferred c = true -> kept = []).
Proof. pose proof (i_pc _ _ HI) as P. unfold pc_inv in P. rewrite Epc in P. exact P. Qed.

Lemma pass_act : Act c (s_todo s) (s_ns s) (s_used s) (kept ++ sl_coro sl :: map sl_coro rest)
                     (s_fut s) (s_erec s) (s_log s).
Proof. rewrite <- pass_live. apply pass_pc. Qed.

Lemma pass_n_ids : In n ids.
Proof.
  eapply act_lv_ids; [apply pass_act|]. apply in_map, in_mid. auto.
Qed.

Lemma pass_n_not_recorded : ~ recorded_l (s_log s) n.
Proof.
  eapply act_lv_not_recorded; [exact Hnd|apply pass_act|]. apply in_map, in_mid. auto.
Qed.

Lemma pass_no_exec er : ~ In (EAfterExec er) (s_log s).
Proof. apply active_no_exec; [exact HI|rewrite Epc; auto]. Qed.
Lemma pass_no_destr : ~ In EDestroyed (s_log s).
Proof. apply active_no_destr; [exact HI|rewrite Epc; auto]. Qed.

Lemma pass_slot_node : c_threads c <= 1 -> sl_node sl = n.
Proof.
  intros Ht. destruct pass_pc as [_ [[_ [_ S]] _]]. destruct (S Ht) as [_ [_ G]].
  apply G. left; reflexivity.
Qed.

Lemma pass_slot_ids : In (sl_node sl) ids.
Proof. destruct pass_pc as [_ [[_ [S _]] _]]. apply S. left; reflexivity. Qed.

Lemma pass_ev e : ev_cond c (s_log s) e -> ev_ok c (s_log s) e.
Proof.
  intros H. split; [exact H|]. split; [apply pass_no_destr|].
  intros er Hin. destruct (pass_no_exec er Hin).
Qed.

Lemma pass_complete rec e1 ns' used' :
  ((exists er, e1 = EBeforeRun er n) \/ exists t, e1 = ERunLog n t) ->
  ev_ok c (s_log s) e1 ->
  ev_cond c (e1 :: s_log s) (EAfterRun (s_erec s) rec (sl_node sl)) ->
  r_node rec = n -> ~ unfin (s_fut s n) ->
  (forall m, m <> n -> ns' m = s_ns s m) ->
  ns_inval (ns' n) = ns_inval (s_ns s n) ->
  ns_done (ns' n) = true ->
  ns_failed (ns' n) = is_bad (r_status rec) ->
  (forall r, In r used' <-> In r (s_used s) /\ (is_wait (sl_coro sl) -> ~ In r (node_res c n))) ->
  Inv c (State (Clean ph kept rest) (s_todo s) ns' used' (s_coros s) (s_fut s)
               (push (s_erec s) rec) (s_clock s)
               (EAfterRun (s_erec s) rec (sl_node sl) :: e1 :: s_log s)).
Proof.
  intros He1 Hok1 Hcond Hrn Hu Hns Hinv Hdone Hfail Hused.
  set (log' := EAfterRun (s_erec s) rec (sl_node sl) :: e1 :: s_log s).
  destruct pass_pc as [_ [[S1 [S2 S3]] [P1 [P2 [P3 [P4 P5]]]]]].
  pose proof pass_act as A. pose proof (i_core _ _ HI) as K. rewrite pass_live in K.
  assert (Hneq : e1 <> EDestroyed /\ (forall er, e1 <> EAfterExec er) /\ job_event e1 = false
                 /\ forall er r x, e1 <> EAfterRun er r x).
  { destruct He1 as [[er ->]|[t ->]]; repeat split; intros; discriminate. }
  destruct Hneq as [Q1 [Q2 [Q3 Q4]]].
  assert (Hnd1 : ~ In EDestroyed (e1 :: s_log s)).
  { intros [H|H]; [congruence|exact (pass_no_destr H)]. }
  assert (Hne1 : forall er, ~ In (EAfterExec er) (e1 :: s_log s)).
  { intros er [H|H]; [exact (Q2 _ H)|exact (pass_no_exec er H)]. }
  assert (Hok2 : ev_ok c (e1 :: s_log s) (EAfterRun (s_erec s) rec (sl_node sl))).
  { split; [exact Hcond|]. split; [exact Hnd1|]. intros er H. destruct (Hne1 er H). }
  assert (Hlive : forall m, unfin (s_fut s m) -> waits m (kept ++ map sl_coro rest)).
  { intros m Hm. pose proof (k_unfin _ _ _ _ K m Hm) as [rc H]. apply in_mid in H.
    destruct H as [H|H]; [|exists rc; exact H].
    exfalso. apply Hu. unfold n. rewrite <- H. exact Hm. }
  assert (Hsub : forall k, In k (kept ++ map sl_coro rest) -> In k (live s)).
  { intros k Hk. rewrite pass_live. apply in_mid. auto. }
  constructor; cbn [s_pc s_todo s_ns s_used s_coros s_fut s_erec s_clock s_log].
  - unfold live; cbn.
    apply core_lv with (lv := kept ++ sl_coro sl :: map sl_coro rest).
    + apply core_emit; [|exact Hok2|reflexivity|].
      * apply core_emit; [exact K|exact Hok1|exact Q3|].
        intros er r x E. destruct (Q4 _ _ _ E).
      * intros er r x E. inversion E; subst. rewrite Hrn. exact Hu.
    + exact Hlive.
    + pose proof (k_bound _ _ _ _ K) as B. rewrite app_length in B |- *. cbn [List.length] in B. lia.
  - unfold log'. intros [H|H]; [discriminate|]. destruct (Hnd1 H).
  - unfold log'. intros er [H|H]; [discriminate|]. destruct (Hne1 er H).
  - unfold pc_inv; cbn. split; [|split; [|split; [|split; [|split; [|split]]]]].
    + unfold act, live; cbn. apply act_complete with (ns := s_ns s) (used := s_used s) (k := sl_coro sl) (log := s_log s);
        auto.
      destruct He1 as [[er ->]|[t ->]]; [left|right]; eauto.
    + unfold slots_ok; cbn. split; [exact S1|]. split; [intros q Hq; apply S2; right; exact Hq|].
      intros Ht. destruct (S3 Ht) as [G1 [G2 G3]]. split; [exact G1|]. split.
      * intros q k Hq Hk. apply G2; [exact Hq|]. apply Hsub. exact Hk.
      * intros q Hq. apply G3. right; exact Hq.
    + exact P1.
    + lia.
    + exact P3.
    + exact P4.
    + exact P5.
  - intros Hd m Hm. exfalso. destruct (i_defer _ _ HI Hd m Hm) as [ph' [sl' [rest' [E Em]]]].
    rewrite Epc in E. inversion E; subst. contradiction.
Qed.

(** the common part of the first resumption *)
Section First.
Hypothesis Efresh : co_st (sl_coro sl) = CFresh.

Lemma first_coro : sl_coro sl = Coro n CFresh.
Proof. unfold n. destruct (sl_coro sl) as [m st]; cbn in *. subst. reflexivity. Qed.

Lemma first_In : In (Coro n CFresh) (kept ++ sl_coro sl :: map sl_coro rest).
Proof. apply in_mid. left. symmetry. apply first_coro. Qed.

Lemma first_ev : ev_ok c (s_log s) (EBeforeRun (s_erec s) n).
Proof.
  apply pass_ev. cbn. pose proof pass_act as A.
  destruct (a_idle _ _ _ _ _ _ _ _ A n (or_intror first_In)) as [G1 [G2 G3]].
  split; [apply A|]. split; [apply A|]. split; [apply pass_n_ids|]. split; [exact G3|].
  split; [apply pass_n_not_recorded|]. split.
  - pose proof (k_fut _ _ _ _ (i_core _ _ HI) n) as F. rewrite G2 in F. cbn in F. apply F.
  - eapply (a_fresh _ _ _ _ _ _ _ _ A). apply first_In.
Qed.

Lemma step_first ok s' : run_first c s ph kept sl rest ok = Some s' -> Inv c s'.
Proof.
  intros H. unfold run_first in H. fold n in H.
  pose proof pass_act as A.
  destruct (a_idle _ _ _ _ _ _ _ _ A n (or_intror first_In)) as [Gf [Gfut Gb]].
  destruct (a_fresh _ _ _ _ _ _ _ _ A n first_In) as [Gar Gres].
  pose proof (a_inv _ _ _ _ _ _ _ _ A n pass_n_ids) as Ginv.
  pose proof first_ev as Hev.
  pose proof (k_fut _ _ _ _ (i_core _ _ HI) n) as Fl. rewrite Gfut in Fl. cbn in Fl.
  destruct Fl as [Fl1 [Fl2 Fl3]].
  assert (Hinv : inval_eqb (ns_inval (s_ns s n)) UNKNOWN = false).
  { destruct Ginv as [[-> _]|[-> _]]; reflexivity. }
  rewrite Hinv in H.
  assert (Hnw : ~ is_wait (sl_coro sl)) by (intros [r E]; congruence).
  assert (Hnu : ~ unfin (s_fut s n)) by (rewrite Gfut; auto).
  assert (Hrl1 : recs (EBeforeRun (s_erec s) n :: s_log s) = recs (s_log s)) by (apply recs_other; reflexivity).
  assert (Hnl : ~ In (ELaunch n) (EBeforeRun (s_erec s) n :: s_log s)).
  { intros [E|E]; [discriminate|auto]. }
  assert (Hcond : forall rec,
    r_node rec = n ->
    rec_ok c (EBeforeRun (s_erec s) n :: s_log s) rec ->
    ev_cond c (EBeforeRun (s_erec s) n :: s_log s) (EAfterRun (s_erec s) rec (sl_node sl))).
  { intros rec Hrn Hrec. cbn [ev_cond]. rewrite Hrl1, Hrn. split; [apply A|]. split; [apply pass_n_ids|].
    split; [exists (s_erec s); left; reflexivity|].
    split; [rewrite recorded_other by reflexivity; apply pass_n_not_recorded|].
    split; [apply after_recorded_mono, Gar|]. split; [exact Hrec|]. split; [apply pass_slot_ids|apply pass_slot_node]. }
  assert (Edep : any_dep_failed (c_dag c) (s_ns (emit s (EBeforeRun (s_erec s) n))) n
                 = any_dep_failed (c_dag c) (s_ns s) n) by (destruct s; reflexivity).
  rewrite Edep in H.
  destruct (any_dep_failed (c_dag c) (s_ns s) n) eqn:Ed.
  - (* DEPF *)
    destruct ok; [|discriminate]. inversion H; subst s'; clear H.
    apply any_dep_failed_spec in Ed. destruct Ed as [m [Hm Hf]].
    set (rec := with_status (new_record c n (s_clock s)) DEPF).
    assert (Hrec : rec_ok c (EBeforeRun (s_erec s) n :: s_log s) rec).
    { unfold rec_ok, rec; cbn -[recs In]. split; [reflexivity|]. split; [reflexivity|].
      split; [|auto]. rewrite Hrl1.
      destruct (act_failed _ _ _ _ _ _ _ _ A m) as [r' [R1 [R2 R3]]].
      - apply Hwf in Hm. apply Hm.
      - exact Hf.
      - exists m, r'. auto. }
    pose proof (pass_complete rec (EBeforeRun (s_erec s) n)
      (s_ns (set_failed (set_done s n) n)) (s_used s)
      (or_introl (ex_intro _ _ eq_refl)) Hev (Hcond rec eq_refl Hrec) eq_refl Hnu) as G.
    clear Hcond Hrec Hev Hrl1 Hnl.
    unfold complete. destruct s as [pc todo ns used coros fut erec clock log]; cbn in *.
    apply G.
    + intros x Hx. rewrite !upd_other by exact Hx. reflexivity.
    + rewrite !upd_same. reflexivity.
    + rewrite !upd_same. reflexivity.
    + rewrite !upd_same. reflexivity.
    + intros r. tauto.
  - assert (Hdeps : forall m, requires (c_dag c) n m -> ns_failed (s_ns s m) = false).
    { intros m Hm. destruct (ns_failed (s_ns s m)) eqn:E; [|reflexivity].
      assert (any_dep_failed (c_dag c) (s_ns s) n = true); [|congruence].
      apply any_dep_failed_spec. eauto. }
    assert (Hdok : deps_ok c (EBeforeRun (s_erec s) n :: s_log s) n).
    { intros m r Hm Hr Er. rewrite Hrl1 in Hr. eapply act_not_failed; [exact A|apply Hdeps, Hm|exact Hr|exact Er]. }
    destruct Ginv as [[Ei Hi]|[Ei Hi]]; (assert (Ei' : ns_inval (s_ns (emit s (EBeforeRun (s_erec s) n)) n) = ns_inval (s_ns s n)) by (destruct s; reflexivity)); rewrite Ei', Ei in H; cbn [inval_eqb] in H.
    + (* the job is launched *)
      set (lg := ELaunch n :: EBeforeRun (s_erec s) n :: s_log s).
      assert (HC1 : Core c (s_fut s) (EBeforeRun (s_erec s) n :: s_log s) (live s)).
      { apply core_emit; [apply HI|exact Hev|reflexivity|discriminate]. }
      destruct pass_pc as [_ [[S1 [S2 S3]] [P1 [P2 [P3 [P4 P5]]]]]].
      destruct ok.
      * inversion H; subst s'; clear H.
        assert (Hlev : ev_ok c (EBeforeRun (s_erec s) n :: s_log s) (ELaunch n)).
        { split; [|split].
          - cbn. split; [exists (s_erec s); left; reflexivity|]. split; [exact Hnl|].
            split; [rewrite recorded_other by reflexivity; apply pass_n_not_recorded|].
            split; [apply after_recorded_mono, Gar|]. split; [exact Hi|]. split; [apply pass_n_ids|exact Hdok].
          - intros [E|E]; [discriminate|exact (pass_no_destr E)].
          - intros er [E|E]; [discriminate|destruct (pass_no_exec er E)]. }
        assert (Hlv' : live s = kept ++ Coro n CFresh :: map sl_coro rest).
        { rewrite pass_live, first_coro. reflexivity. }
        set (f := if deferred c then FDeferred else FPending).
        assert (HC2 : Core c (upd (s_fut s) n f) lg
                           (kept ++ Coro n (CWait (new_record c n (s_clock s))) :: map sl_coro rest)).
        { assert (Hw : forall m rc, In (Coro m (CWait rc)) (live s) ->
             waits m (kept ++ Coro n (CWait (new_record c n (s_clock s))) :: map sl_coro rest)).
          { intros m rc Hin. exists rc. rewrite Hlv' in Hin. apply in_mid in Hin. apply in_mid.
            destruct Hin as [Hin|Hin]; [discriminate|auto]. }
          apply core_launch with (lv := live s).
          - exact HC1.
          - exact Hlev.
          - exact Gfut.
          - exists (new_record c n (s_clock s)). apply in_mid. auto.
          - intros m Hm. destruct (k_unfin _ _ _ _ (i_core _ _ HI) m Hm) as [rc Hin]. eapply Hw, Hin.
          - pose proof (k_bound _ _ _ _ (i_core _ _ HI)) as B. rewrite Hlv' in B.
            rewrite app_length in B |- *. exact B.
          - intros m Hm Hu r Hr1 Hr2. apply (Gres r Hr1). apply A.
            destruct (k_unfin _ _ _ _ (i_core _ _ HI) m Hu) as [rc Hin]. rewrite pass_live in Hin.
            exists m, rc. auto. }
        assert (HA2 : Act c (s_todo s) (s_ns (set_started s n))
                     (fold_left (fun u r => set_insert r u) (node_res c n) (s_used s))
                     (kept ++ Coro n (CWait (new_record c n (s_clock s))) :: map sl_coro rest)
                     (upd (s_fut s) n f) (s_erec s) lg).
        { unfold lg. rewrite first_coro in A. 
          pose proof (act_launch c (s_todo s) (s_ns s) (s_used s) kept (map sl_coro rest) (s_fut s) (s_erec s)
                      (s_log s) n (s_clock s) f Hnd (k_log _ _ _ _ (i_core _ _ HI)) A) as G.
          destruct s; apply G; auto. subst f. destruct (deferred c); discriminate. }
        match goal with |- Inv c ?S => set (s2 := S) end.
        assert (Hl2 : live s2 = kept ++ Coro n (CWait (new_record c n (s_clock s))) :: map sl_coro rest) by reflexivity.
        assert (Hlive_nodes : forall k, In k (kept ++ Coro n (CWait (new_record c n (s_clock s))) :: map sl_coro rest) ->
                 exists k', In k' (live s) /\ co_node k' = co_node k).
        { intros k Hk. apply in_mid in Hk. destruct Hk as [->|Hk].
          - exists (Coro n CFresh). split; [rewrite Hlv'; apply in_mid; auto|reflexivity].
          - exists k. split; [rewrite Hlv'; apply in_mid; auto|reflexivity]. }
        constructor.
        -- rewrite Hl2. destruct s; exact HC2.
        -- intros E. exfalso. assert (E' : In EDestroyed lg) by (destruct s; exact E).
           destruct E' as [E'|[E'|E']]; try discriminate. exact (pass_no_destr E').
        -- intros er E. exfalso. assert (E' : In (EAfterExec er) lg) by (destruct s; exact E).
           destruct E' as [E'|[E'|E']]; try discriminate. exact (pass_no_exec er E').
        -- change (pc_inv c s2) with (act c s2 /\ slots_ok c s2 (Slot (sl_node sl) (Coro n (CWait (new_record c n (s_clock s)))) :: rest)
              /\ (forall k, In k kept -> is_wait k)
              /\ List.length kept + S (List.length rest) <= List.length (s_coros s2)
              /\ (ph = PDrain -> s_todo s2 = []) /\ (ph = PMain -> s_todo s2 <> [])
              /\ (deferred c = true -> kept = [])).
           split; [|split; [|split; [|split; [|split; [|split]]]]].
           ++ unfold act. rewrite Hl2. destruct s; exact HA2.
           ++ unfold slots_ok. rewrite Hl2. split; [destruct s; exact S1|]. split.
              ** intros q [<-|Hq]; [apply pass_slot_ids|]. apply S2. right; exact Hq.
              ** intros Ht. destruct (S3 Ht) as [G1 [G2 G3]].
                 split; [destruct s; exact G1|]. split.
                 --- intros q k Hq Hk. destruct (Hlive_nodes k Hk) as [k' [Hk' <-]]. apply G2; [destruct s; exact Hq|exact Hk'].
                 --- intros q [<-|Hq]; [apply pass_slot_node, Ht|]. apply G3. right; exact Hq.
           ++ exact P1.
           ++ destruct s; cbn in *; lia.
           ++ destruct s; exact P3.
           ++ destruct s; exact P4.
           ++ exact P5.
        -- intros Hd m Hm. destruct (upd_cases (s_fut s) n f m) as [[-> E]|[Hne E]].
           ++ exists ph, (Slot (sl_node sl) (Coro n (CWait (new_record c n (s_clock s))))), rest.
              split; [|reflexivity].
              change (s_pc s2) with (Clean ph kept (Slot (sl_node sl) (Coro n (CWait (new_record c n (s_clock s)))) :: rest)).
              rewrite (P5 Hd). reflexivity.
           ++ assert (Hm' : unfin (s_fut s m)).
              { change (unfin (upd (s_fut s) n f m)) in Hm. rewrite E in Hm. exact Hm. }
              destruct (i_defer _ _ HI Hd m Hm') as [ph' [sl' [rest' [E1 E2]]]].
              rewrite Epc in E1. inversion E1; subst. destruct Hne. reflexivity.
      * (* std::async throws *)
        destruct (deferred c) eqn:Edf; [discriminate|]. inversion H; subst s'; clear H.
        assert (Hl2 : map sl_coro (map (fun k => Slot (co_node k) k) kept ++ rest) = kept ++ map sl_coro rest).
        { rewrite map_app, map_map. cbn. rewrite map_id. reflexivity. }
        constructor.
        -- unfold live. cbn [s_pc set_pc]. rewrite Hl2.
           apply core_lv with (lv := live s).
           ++ destruct s; exact HC1.
           ++ intros m Hm. assert (Hm' : unfin (s_fut s m)) by (destruct s; exact Hm).
              pose proof (k_unfin _ _ _ _ (i_core _ _ HI) m Hm') as [rc Hl]. rewrite pass_live in Hl.
              exists rc. apply in_mid in Hl. destruct Hl as [Hl|Hl]; [|exact Hl].
              rewrite first_coro in Hl. discriminate.
           ++ pose proof (k_bound _ _ _ _ (i_core _ _ HI)) as B. rewrite pass_live in B.
              rewrite app_length in B |- *. cbn [List.length] in B. lia.
        -- intros E. exfalso. assert (E' : In EDestroyed (EBeforeRun (s_erec s) n :: s_log s)) by (destruct s; exact E).
           destruct E' as [E'|E']; try discriminate. exact (pass_no_destr E').
        -- intros er E. exfalso. assert (E' : In (EAfterExec er) (EBeforeRun (s_erec s) n :: s_log s)) by (destruct s; exact E).
           destruct E' as [E'|E']; try discriminate. exact (pass_no_exec er E').
        -- unfold pc_inv. cbn [s_pc set_pc]. split; [|exact I]. cbn. split; [apply pass_n_ids|].
           unfold deferred in Edf. apply Nat.eqb_neq in Edf. lia.
        -- intros Hd. congruence.
    + (* SKIP *)
      destruct ok; [|discriminate]. inversion H; subst s'; clear H.
      set (rec := with_status (new_record c n (s_clock s)) SKIP).
      assert (Hrec : rec_ok c (EBeforeRun (s_erec s) n :: s_log s) rec).
      { unfold rec_ok, rec; cbn -[recs In]. split; [reflexivity|]. split; [reflexivity|]. auto. }
      unfold flags in Gf.
      pose proof (pass_complete rec (EBeforeRun (s_erec s) n)
        (s_ns (set_done s n)) (s_used s)
        (or_introl (ex_intro _ _ eq_refl)) Hev (Hcond rec eq_refl Hrec) eq_refl Hnu) as G.
      clear Hcond Hrec Hev Hrl1 Hnl Hdok.
      unfold complete. destruct s as [pc todo ns used coros fut erec clock log]; cbn in *.
      apply G.
      * intros x Hx. rewrite !upd_other by exact Hx. reflexivity.
      * rewrite !upd_same. reflexivity.
      * rewrite !upd_same. reflexivity.
      * rewrite !upd_same. cbn. congruence.
      * intros r. tauto.
Qed.
End First.

Section Poll.
Variable rec : run_record.
Hypothesis Ewait : co_st (sl_coro sl) = CWait rec.

Lemma poll_coro : sl_coro sl = Coro n (CWait rec).
Proof. unfold n. destruct (sl_coro sl) as [m st]; cbn in *. subst. reflexivity. Qed.

Lemma poll_In : In (Coro n (CWait rec)) (kept ++ sl_coro sl :: map sl_coro rest).
Proof. apply in_mid. left. symmetry. apply poll_coro. Qed.

Lemma poll_timeout :
  (s_fut s n = FPending \/ s_fut s n = FRunning) -> deferred c = false ->
  Inv c (set_pc (emit s (ETimeout n)) (Clean ph (kept ++ [sl_coro sl]) rest)).
Proof.
  intros Hf Hdef. pose proof pass_act as A.
  assert (Hev : ev_ok c (s_log s) (ETimeout n)).
  { apply pass_ev. cbn. pose proof (k_fut _ _ _ _ (i_core _ _ HI) n) as F.
    destruct Hf as [E|E]; rewrite E in F; cbn in F; (split; [apply F|intros [o Ho]; eapply F; eauto]). }
  destruct pass_pc as [_ [[S1 [S2 S3]] [P1 [P2 [P3 [P4 P5]]]]]].
  assert (El : live (set_pc (emit s (ETimeout n)) (Clean ph (kept ++ [sl_coro sl]) rest)) = live s).
  { rewrite pass_live. unfold live. cbn. rewrite <- app_assoc. reflexivity. }
  constructor.
  - rewrite El. pose proof (i_core _ _ HI) as K. destruct s. apply core_emit; [exact K|exact Hev|reflexivity|discriminate].
  - intros E. exfalso. assert (E' : In EDestroyed (ETimeout n :: s_log s)) by (destruct s; exact E).
    destruct E' as [E'|E']; try discriminate. exact (pass_no_destr E').
  - intros er E. exfalso. assert (E' : In (EAfterExec er) (ETimeout n :: s_log s)) by (destruct s; exact E).
    destruct E' as [E'|E']; try discriminate. exact (pass_no_exec er E').
  - unfold pc_inv. cbn [s_pc set_pc]. split; [|split; [|split; [|split; [|split; [|split]]]]].
    + unfold act. rewrite El. rewrite pass_live. destruct s. apply act_quiet; [reflexivity|exact A].
    + unfold slots_ok. rewrite El. split; [destruct s; exact S1|].
      split; [intros q Hq; apply S2; right; exact Hq|].
      intros Ht. destruct (S3 Ht) as [G1 [G2 G3]]. split; [destruct s; exact G1|]. split; [destruct s; exact G2|].
      intros q Hq. apply G3. right; exact Hq.
    + intros k Hk. apply in_app_iff in Hk. destruct Hk as [Hk|[<-|[]]]; [apply P1, Hk|].
      exists rec. exact Ewait.
    + rewrite app_length. destruct s; cbn in *. lia.
    + destruct s; exact P3.
    + destruct s; exact P4.
    + congruence.
  - congruence.
Qed.

Lemma step_poll s' : run_poll c s ph kept sl rest rec = Some s' -> Inv c s'.
Proof.
  intros H. unfold run_poll in H. fold n in H. pose proof pass_act as A.
  pose proof (a_wait _ _ _ _ _ _ _ _ A n rec poll_In) as W.
  pose proof (k_kind _ _ _ _ (i_core _ _ HI) n) as Hkind.
  pose proof (k_fut _ _ _ _ (i_core _ _ HI) n) as Fl.
  destruct pass_pc as [_ [_ [_ [_ [_ [_ P5]]]]]].
  destruct (s_fut s n) as [| | | |o] eqn:Ef.
  - discriminate.
  - (* a deferred job is called *)
    inversion H; subst s'; clear H.
    assert (Hd : deferred c = true) by (destruct (deferred c); congruence).
    assert (Hu : unfin (s_fut s n)) by (rewrite Ef; exact I).
    apply step_job; auto; try discriminate.
    + intros _. right. rewrite Epc, (P5 Hd). eauto.
    + apply core_begin; [apply HI|auto|apply pass_no_destr|apply pass_no_exec].
  - inversion H; subst s'; clear H.
    apply poll_timeout; [auto|]. destruct (deferred c); congruence.
  - destruct (deferred c) eqn:Hd; [discriminate|]. inversion H; subst s'; clear H.
    apply poll_timeout; auto.
  - inversion H; subst s'; clear H. cbn in Fl. destruct Fl as [Fl1 [Fl2 [Fl3 Fl4]]].
    destruct (w_rec _ _ _ _ _ _ W) as [z Ez].
    pose proof (w_flags _ _ _ _ _ _ W) as Wf. unfold flags in Wf.
    set (rr := run_lambda o) in *. set (rec' := finish_record rec rr (s_clock s)).
    assert (Hrl1 : recs (ERunLog n (rr_log rr) :: s_log s) = recs (s_log s)) by (apply recs_other; reflexivity).
    assert (Hrn : r_node rec' = n) by (unfold rec'; cbn; rewrite Ez; reflexivity).
    assert (Hev1 : ev_ok c (s_log s) (ERunLog n (rr_log rr))).
    { apply pass_ev. cbn. split; [apply W|]. split; [apply pass_n_not_recorded|]. split; [apply W|]. eauto. }
    assert (Hrec : rec_ok c (ERunLog n (rr_log rr) :: s_log s) rec').
    { unfold rec_ok. rewrite Hrn.
      assert (R1 : r_task rec' = node_task (c_dag c) n) by (unfold rec'; cbn; rewrite Ez; reflexivity).
      assert (R2 : r_name rec' = node_name (c_dag c) n) by (unfold rec'; cbn; rewrite Ez; reflexivity).
      split; [exact R1|]. split; [exact R2|].
      assert (G : Invalidated c n /\ In (ELaunch n) (ERunLog n (rr_log rr) :: s_log s) /\
        (forall m r', requires d n m -> runs_after d n m -> In r' (recs (ERunLog n (rr_log rr) :: s_log s)) ->
             r_node r' = m -> is_bad (r_status r') = false) /\
        exists o', In (EEnd n o') (ERunLog n (rr_log rr) :: s_log s) /\ r_retcode rec' = rr_retcode (run_lambda o')
          /\ r_output rec' = rr_output (run_lambda o')
          /\ In (ERunLog n (rr_log (run_lambda o'))) (ERunLog n (rr_log rr) :: s_log s)
          /\ (r_status rec' = FAIL <-> r_retcode rec' <> 0%Z)).
      { split; [apply W|]. split; [right; exact Fl1|]. split; [rewrite Hrl1; apply W|].
        exists o. split; [right; exact Fl3|]. split; [reflexivity|]. split; [reflexivity|].
        split; [left; reflexivity|]. unfold rec'; cbn. rewrite Ez; cbn.
        destruct (Z.eqb_spec (rr_retcode rr) 0) as [E|E]; cbn.
        - rewrite E. split; [discriminate|congruence].
        - tauto. }
      assert (Hst : r_status rec' = OK \/ r_status rec' = FAIL).
      { unfold rec'; cbn. rewrite Ez. cbn. destruct (negb (rr_retcode rr =? 0)%Z); auto. }
      destruct Hst as [E|E]; rewrite E in *; exact G. }
    assert (Hcond : ev_cond c (ERunLog n (rr_log rr) :: s_log s) (EAfterRun (s_erec s) rec' (sl_node sl))).
    { cbn [ev_cond]. rewrite Hrl1, Hrn. split; [apply A|]. split; [apply pass_n_ids|].
      split; [apply before_mono, W|].
      split; [rewrite recorded_other by reflexivity; apply pass_n_not_recorded|].
      split; [apply after_recorded_mono, W|]. split; [exact Hrec|]. split; [apply pass_slot_ids|apply pass_slot_node]. }
    assert (Hu0 : ~ unfin (s_fut s n)) by (rewrite Ef; auto).
    assert (Hst : is_bad (r_status rec') = negb (rr_retcode rr =? 0)%Z).
    { unfold rec'; cbn. rewrite Ez. cbn. destruct (negb (rr_retcode rr =? 0)%Z); reflexivity. }
    pose proof (pass_complete rec' (ERunLog n (rr_log rr))
      (s_ns (set_done (if negb (rr_retcode rr =? 0)%Z then set_failed s n else s) n))
      (fold_left (fun u r => set_erase r u) (node_res c n) (s_used s))
      (or_intror (ex_intro _ _ eq_refl)) Hev1 Hcond Hrn Hu0) as G.
    clear Hcond Hrec Hev1 Hrl1 Hrn.
    unfold complete. destruct s as [pc todo ns used coros fut erec clock log]; cbn in *.
    assert (Hiw : is_wait (sl_coro sl)) by (exists rec; exact Ewait).
    destruct (negb (rr_retcode rr =? 0)%Z) eqn:Ez2; cbn in *.
    + apply G.
      * intros x Hx. rewrite !upd_other by exact Hx. reflexivity.
      * rewrite !upd_same. reflexivity.
      * rewrite !upd_same. reflexivity.
      * rewrite !upd_same. cbn. congruence.
      * intros r. rewrite fold_erase_In. tauto.
    + apply G.
      * intros x Hx. rewrite !upd_other by exact Hx. reflexivity.
      * rewrite !upd_same. reflexivity.
      * rewrite !upd_same. reflexivity.
      * rewrite !upd_same. cbn. congruence.
      * intros r. rewrite fold_erase_In. tauto.
Qed.
End Poll.
End Pass.

End Step.
