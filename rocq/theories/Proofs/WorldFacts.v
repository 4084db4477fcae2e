(** Programs with several executions. *)
From Coq Require Import Lia String.
From Verif Require Import Model.Common Model.Records Model.Jobs Model.TaskSet Model.Dag
     Model.Sched Model.Exec Model.World Spec.Graph Spec.Trace Spec.World
     Proofs.Sets Proofs.TraceFacts Proofs.ExecInv Proofs.ExecStep
     Proofs.ExecCtl Proofs.LogFacts Proofs.ExecProps Proofs.ExecProps2 Proofs.ExecProps3
     Proofs.StepCases.
Open Scope nat_scope.
Open Scope list_scope.

Lemma labels_app i a b : labels_of i (a ++ b) = labels_of i a ++ labels_of i b.
Proof. unfold labels_of. now rewrite filter_app, map_app. Qed.

Lemma run_world_app cs p : forall w q,
  run_world cs w (p ++ q) = match run_world cs w p with Some w' => run_world cs w' q | None => None end.
Proof.
  induction p as [|a p IH]; intros w q; [reflexivity|]. cbn.
  destruct (world_step cs w a) as [w'|]; [apply IH|reflexivity].
Qed.

(** Each execution does what it would do alone. *)
Lemma world_alone0 cs : forall ls w w' i,
  run_world cs w ls = Some w' -> run_labels (cs i) (w i) (labels_of i ls) = Some (w' i).
Proof.
  induction ls as [|[j l] ls IH]; intros w w' i E.
  - inversion E. reflexivity.
  - cbn in E. unfold world_step in E. cbn [fst snd] in E.
    destruct (step (cs j) (w j) l) as [s|] eqn:E1; [|discriminate].
    specialize (IH _ _ i E). unfold labels_of in *. cbn [filter map fst].
    destruct (Nat.eqb_spec j i) as [->|Hne].
    + cbn [map snd run_labels]. rewrite E1. unfold upd in IH. rewrite Nat.eqb_refl in IH. exact IH.
    + unfold upd in IH. rewrite (proj2 (Nat.eqb_neq i j)) in IH by auto. exact IH.
Qed.

Theorem world_alone : forall cs z ls w i,
  run_world cs (world_init z) ls = Some w ->
  run_labels (cs i) (init z) (labels_of i ls) = Some (w i) /\ reachable (cs i) z (w i).
Proof.
  intros cs z ls w i E. pose proof (world_alone0 cs ls _ _ i E) as H.
  split; [exact H|]. exists (labels_of i ls). exact H.
Qed.

(** Any histories can be interleaved in any way. *)
Theorem world_any : forall cs z ls,
  (forall i, exists s, run_labels (cs i) (init z) (labels_of i ls) = Some s) ->
  exists w, run_world cs (world_init z) ls = Some w.
Proof.
  intros cs z ls H.
  assert (G : forall ls w, (forall i, exists s, run_labels (cs i) (w i) (labels_of i ls) = Some s) ->
              exists w', run_world cs w ls = Some w').
  { clear. induction ls as [|[j l] ls IH]; intros w H; [exists w; reflexivity|].
    cbn. unfold world_step. cbn [fst snd]. destruct (H j) as [s Hs]. unfold labels_of in Hs. cbn [filter map fst snd] in Hs.
    rewrite Nat.eqb_refl in Hs. cbn [map snd run_labels] in Hs.
    destruct (step (cs j) (w j) l) as [s1|] eqn:E1; [|discriminate].
    apply IH. intros i. unfold upd. destruct (Nat.eqb_spec i j) as [->|Hne].
    - exists s. exact Hs.
    - destruct (H i) as [s' Hs']. exists s'. unfold labels_of in Hs'. cbn [filter map fst] in Hs'.
      rewrite (proj2 (Nat.eqb_neq j i)) in Hs' by auto. exact Hs'. }
  apply G. exact H.
Qed.

(** An execution that is in progress or has jobs that did not end. *)
Definition busy (s : state) : Prop :=
  match s_pc s with Suspended _ | Clean _ _ _ | Unwind _ _ => True | _ => False end
  \/ exists n, unfin (s_fut s n).

Section One.
Variable c : config.
Hypothesis Hwf : wf_dag (c_dag c).

Lemma rest_not_busy z s : reachable c z s -> not_in_progress s -> ~ busy s.
Proof.
  intros HR H. pose proof (r_inv c z s Hwf HR) as HI. pose proof (i_pc _ _ HI) as P. unfold pc_inv in P.
  destruct H as [H|[H|H]].
  - intros [B|[n B]]; [rewrite H in B; exact B|]. rewrite H in P. destruct P as (_ & _ & _ & _ & Pf & _).
    rewrite Pf in B. exact B.
  - intros [B|[n B]]; [unfold done in H; destruct (s_pc s); try discriminate; exact B|].
    exact (done_no_jobs c z s n Hwf HR H B).
  - assert (Hd : s_pc s = Destroyed) by (apply (i_destr _ _ HI); apply in_rev; exact H).
    intros [B|[n B]]; [rewrite Hd in B; exact B|].
    destruct (k_unfin _ _ _ _ (i_core _ _ HI) n B) as [rec W]. unfold live in W. rewrite Hd in P, W.
    rewrite (proj1 P) in W. exact W.
Qed.

Lemma not_busy_idle z s : reachable c z s -> ~ busy s -> running (trace s) = [].
Proof.
  intros HR HB. pose proof (k_run _ _ _ _ (i_core _ _ (r_inv c z s Hwf HR))) as K.
  change (run_l (s_log s)) with (running (trace s)) in K.
  destruct (running (trace s)) as [|n l] eqn:E; [reflexivity|].
  exfalso. apply HB. right. exists n. rewrite (proj1 (K n) (or_introl eq_refl)). exact I.
Qed.

(** Only a tick makes an execution busy that is not. *)
Lemma busy_step z s l s' : reachable c z s -> step c s l = Some s' -> busy s' -> busy s \/ tick_label s l.
Proof.
  intros HR E HB. pose proof (r_inv c z s Hwf HR) as HI.
  destruct l as [| | | |k|n|n o|t].
  - right. left. reflexivity.
  - left. right. cbn in E. destruct HB as [HB|[n HB]].
    + destruct (s_pc s); try discriminate; inversion E; subst s'; destruct HB.
    + exists n. destruct (s_pc s); try discriminate; inversion E; subst s'; exact HB.
  - cbn in E. unfold ctl in E. destruct (s_pc s) as [|ph|ph kept rest|e rest|rest| | | |] eqn:Epc; try discriminate.
    + left. left. rewrite Epc. exact I.
    + left. left. rewrite Epc. exact I.
    + left. right. destruct rest as [|sl rest].
      * inversion E; subst s'. destruct HB as [[]|[n HB]]. exists n. exact HB.
      * destruct (destroy_one s sl); inversion E; subst s'. destruct HB as [[]|[n HB]]. exists n. exact HB.
  - cbn in E. unfold ctl in E. destruct (s_pc s) as [|ph|ph kept rest|e rest|rest| | | |] eqn:Epc; try discriminate.
    left. left. rewrite Epc. exact I.
  - unfold tick_label. destruct (tick_running s) eqn:Et.
    + left. left. unfold tick_running in Et. destruct (s_pc s); try discriminate; exact I.
    + right. right. split; [exists k; reflexivity|reflexivity].
  - left. right. exists n. cbn in E. destruct (s_fut s n) eqn:Ef; try discriminate. exact I.
  - left. right. exists n. cbn in E. destruct (s_fut s n) eqn:Ef; try discriminate. exact I.
  - left. inversion E; subst s'. exact HB.
Qed.

(** What is not busy does nothing until it is ticked. *)
Lemma quiet_step z s l s' new e :
  reachable c z s -> step c s l = Some s' -> trace s' = trace s ++ new -> In e new -> e <> EDestroyed ->
  busy s \/ tick_label s l.
Proof.
  intros HR E Hn Hin He.
  assert (H0 : s_log s' = s_log s -> False).
  { intros X. unfold trace in Hn. rewrite X in Hn. rewrite <- (app_nil_r (rev (s_log s))) in Hn at 1.
    apply app_inv_head in Hn. subst new. destruct Hin. }
  destruct l as [| | | |k|n|n o|t].
  - right. left. reflexivity.
  - exfalso. cbn in E. destruct (s_pc s); try discriminate; inversion E; subst s'; now apply H0.
  - cbn in E. unfold ctl in E. destruct (s_pc s) as [|ph|ph kept rest|e' rest|rest| | | |] eqn:Epc; try discriminate.
    + left. left. rewrite Epc. exact I.
    + left. left. rewrite Epc. exact I.
    + exfalso. destruct rest as [|sl rest].
      * inversion E; subst s'. unfold trace in Hn. cbn in Hn. apply app_inv_head in Hn. subst new.
        destruct Hin as [X|[]]. now apply He.
      * destruct (destroy_one s sl); inversion E; subst s'. now apply H0.
  - cbn in E. unfold ctl in E. destruct (s_pc s) as [|ph|ph kept rest|e' rest|rest| | | |] eqn:Epc; try discriminate.
    left. left. rewrite Epc. exact I.
  - unfold tick_label. destruct (tick_running s) eqn:Et.
    + left. left. unfold tick_running in Et. destruct (s_pc s); try discriminate; exact I.
    + right. right. split; [exists k; reflexivity|reflexivity].
  - left. right. exists n. cbn in E. destruct (s_fut s n) eqn:Ef; try discriminate. exact I.
  - left. right. exists n. cbn in E. destruct (s_fut s n) eqn:Ef; try discriminate. exact I.
  - exfalso. inversion E; subst s'. now apply H0.
Qed.
End One.

Section World.
Variable cs : nat -> config.
Hypothesis Hwf : forall i, wf_dag (c_dag (cs i)).
Variable z : Z.

Lemma one_prefix p q : one_at_a_time cs z (p ++ q) -> one_at_a_time cs z p.
Proof.
  intros H p' i l q' w E. apply (H p' i l (q' ++ q) w). rewrite E, <- app_assoc. reflexivity.
Qed.

Lemma one_busy : forall ls w,
  one_at_a_time cs z ls -> run_world cs (world_init z) ls = Some w ->
  forall i j, busy (w i) -> busy (w j) -> i = j.
Proof.
  induction ls as [|[k l] ls IH] using rev_ind; intros w H1 E i j Hi Hj.
  - exfalso. inversion E; subst w. destruct Hi as [[]|[n []]].
  - rewrite run_world_app in E. destruct (run_world cs (world_init z) ls) as [w0|] eqn:E0; [|discriminate].
    cbn in E. unfold world_step in E. cbn [fst snd] in E.
    destruct (step (cs k) (w0 k) l) as [s|] eqn:E1; [|discriminate]. inversion E; subst w; clear E.
    specialize (IH w0 (one_prefix _ _ H1) eq_refl).
    pose proof (fun m => proj2 (world_alone cs z ls w0 m E0)) as HR.
    assert (Hk : busy (upd w0 k s k) -> forall m, m <> k -> ~ busy (w0 m)).
    { intros Hb m Hm Hbm. unfold upd in Hb. rewrite Nat.eqb_refl in Hb.
      destruct (busy_step (cs k) (Hwf k) z (w0 k) l s (HR k) E1 Hb) as [Hb0|Ht].
      - apply Hm. now apply IH.
      - apply (rest_not_busy (cs m) (Hwf m) z (w0 m) (HR m)); [|exact Hbm].
        apply (H1 ls k l [] w0 eq_refl E0 Ht m Hm). }
    destruct (Nat.eq_dec i k) as [->|Hi']; destruct (Nat.eq_dec j k) as [->|Hj']; [reflexivity|..].
    + exfalso. apply (Hk Hi j Hj'). unfold upd in Hj. rewrite (proj2 (Nat.eqb_neq j k)) in Hj by auto. exact Hj.
    + exfalso. apply (Hk Hj i Hi'). unfold upd in Hi. rewrite (proj2 (Nat.eqb_neq i k)) in Hi by auto. exact Hi.
    + apply IH; [unfold upd in Hi; rewrite (proj2 (Nat.eqb_neq i k)) in Hi by auto; exact Hi|].
      unfold upd in Hj. rewrite (proj2 (Nat.eqb_neq j k)) in Hj by auto. exact Hj.
Qed.

Theorem one_running ls w i j a b :
  one_at_a_time cs z ls -> run_world cs (world_init z) ls = Some w ->
  In a (running (trace (w i))) -> In b (running (trace (w j))) -> i = j.
Proof.
  intros H1 E Ha Hb. pose proof (fun m => proj2 (world_alone cs z ls w m E)) as HR.
  assert (K : forall m x, In x (running (trace (w m))) -> busy (w m)).
  { intros m x Hx. right. exists x.
    pose proof (k_run _ _ _ _ (i_core _ _ (r_inv (cs m) z (w m) (Hwf m) (HR m)))) as K.
    change (run_l (s_log (w m))) with (running (trace (w m))) in K.
    apply K in Hx. rewrite Hx. exact I. }
  apply (one_busy ls w H1 E); eauto.
Qed.

Theorem one_resource ls w i j a b r :
  one_at_a_time cs z ls -> run_world cs (world_init z) ls = Some w ->
  In a (running (trace (w i))) -> In b (running (trace (w j))) ->
  In r (node_res (cs i) a) -> In r (node_res (cs j) b) -> i = j /\ a = b.
Proof.
  intros H1 E Ha Hb Hra Hrb. assert (Eq : i = j) by (eapply one_running; eassumption). subst j.
  split; [reflexivity|]. pose proof (proj2 (world_alone cs z ls w i E)) as HR.
  apply (resource_exclusion (cs i) z (w i) (trace (w i)) [] a b r (Hwf i) HR); try assumption.
  now rewrite app_nil_r.
Qed.

(** While a job runs in one execution, nothing happens in the others. *)
Theorem one_active ls w i l w' new e j :
  one_at_a_time cs z (ls ++ [(i, l)]) -> run_world cs (world_init z) ls = Some w ->
  world_step cs w (i, l) = Some w' ->
  trace (w' i) = trace (w i) ++ new -> In e new -> e <> EDestroyed -> j <> i ->
  running (trace (w j)) = [].
Proof.
  intros H1 E E1 He1 He2 Hed Hj. pose proof (fun m => proj2 (world_alone cs z ls w m E)) as HR.
  unfold world_step in E1. cbn [fst snd] in E1. destruct (step (cs i) (w i) l) as [s|] eqn:E2; [|discriminate].
  inversion E1; subst w'; clear E1. unfold upd in He1. rewrite Nat.eqb_refl in He1.
  apply (not_busy_idle (cs j) (Hwf j) z (w j) (HR j)). intros Hb.
  destruct (quiet_step (cs i) z (w i) l s new e (HR i) E2 He1 He2 Hed) as [Hbi|Ht].
  - apply Hj. eapply (one_busy ls w); [eapply one_prefix; exact H1|exact E|exact Hb|exact Hbi].
  - eapply (rest_not_busy (cs j) (Hwf j) z (w j) (HR j)); [|exact Hb].
    eapply H1; [reflexivity|exact E|exact Ht|exact Hj].
Qed.

Lemma client_prefix p q : one_client cs z (p ++ q) -> one_client cs z p.
Proof.
  intros H p' i l q' w E. apply (H p' i l (q' ++ q) w). rewrite E, <- app_assoc. reflexivity.
Qed.

Lemma env_keeps_tick c s l s' : env_label l = true -> step c s l = Some s' -> tick_running s' = tick_running s.
Proof.
  intros Hl E. destruct l; try discriminate; cbn in E.
  - destruct (s_fut s n); inversion E; reflexivity.
  - destruct (s_fut s n); inversion E; reflexivity.
  - inversion E; reflexivity.
Qed.

Lemma one_tick : forall ls w,
  one_client cs z ls -> run_world cs (world_init z) ls = Some w ->
  forall i j, tick_running (w i) = true -> tick_running (w j) = true -> i = j.
Proof.
  induction ls as [|[k l] ls IH] using rev_ind; intros w H1 E i j Hi Hj.
  - inversion E; subst w. discriminate.
  - rewrite run_world_app in E. destruct (run_world cs (world_init z) ls) as [w0|] eqn:E0; [|discriminate].
    cbn in E. unfold world_step in E. cbn [fst snd] in E.
    destruct (step (cs k) (w0 k) l) as [s|] eqn:E1; [|discriminate]. inversion E; subst w; clear E.
    specialize (IH w0 (client_prefix _ _ H1) eq_refl).
    assert (Hk : tick_running (upd w0 k s k) = true -> forall m, m <> k -> tick_running (w0 m) = true -> False).
    { intros Hb m Hm Hbm. unfold upd in Hb. rewrite Nat.eqb_refl in Hb. destruct (env_label l) eqn:El.
      - rewrite (env_keeps_tick _ _ _ _ El E1) in Hb. apply Hm. now apply IH.
      - rewrite (H1 ls k l [] w0 eq_refl E0 El m Hm) in Hbm. discriminate. }
    destruct (Nat.eq_dec i k) as [->|Hi']; destruct (Nat.eq_dec j k) as [->|Hj']; [reflexivity|..].
    + exfalso. apply (Hk Hi j Hj'). unfold upd in Hj. rewrite (proj2 (Nat.eqb_neq j k)) in Hj by auto. exact Hj.
    + exfalso. apply (Hk Hj i Hi'). unfold upd in Hi. rewrite (proj2 (Nat.eqb_neq i k)) in Hi by auto. exact Hi.
    + apply IH; [unfold upd in Hi; rewrite (proj2 (Nat.eqb_neq i k)) in Hi by auto; exact Hi|].
      unfold upd in Hj. rewrite (proj2 (Nat.eqb_neq j k)) in Hj by auto. exact Hj.
Qed.

Theorem no_threads_one_running ls w i j a b :
  (forall i, c_threads (cs i) = 0) -> one_client cs z ls -> run_world cs (world_init z) ls = Some w ->
  In a (running (trace (w i))) -> In b (running (trace (w j))) -> i = j /\ a = b.
Proof.
  intros H0 H1 E Ha Hb. pose proof (fun m => proj2 (world_alone cs z ls w m E)) as HR.
  assert (K : forall m x, In x (running (trace (w m))) -> tick_running (w m) = true).
  { intros m x Hx. apply (deferred_inside_tick (cs m) z (w m) x (Hwf m) (HR m) (H0 m) Hx). }
  assert (Eq : i = j) by (eapply one_tick; eauto). subst j. split; [reflexivity|].
  pose proof (concurrency_bound (cs i) z (w i) (trace (w i)) [] (Hwf i) (HR i) (eq_sym (app_nil_r _))) as B.
  rewrite (H0 i) in B. destruct (running (trace (w i))) as [|x [|y l]]; [destruct Ha| |cbn in B; lia].
  destruct Ha as [<-|[]], Hb as [<-|[]]. reflexivity.
Qed.
End World.
