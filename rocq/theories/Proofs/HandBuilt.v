(** Requires edges in graphs where they are not accompanied by run-after edges (C52). *)
From Coq Require Import Relations Lia Permutation.
From Verif Require Import Model.Common Model.Records Model.Jobs Model.TaskSet Model.Dag
     Model.Sched Model.Exec Spec.Graph Spec.Trace Spec.Parallel Spec.Machine
     Proofs.Sets Proofs.TraceFacts Proofs.ExecInv Proofs.LogFacts Proofs.ExecProps Proofs.ExecProps2
     Proofs.ExecProps3 Proofs.ExecProps4 Proofs.SlotNodes Proofs.RaceFacts Proofs.MachineFacts.
Open Scope nat_scope.
Open Scope list_scope.

Section Fixed.
Variables (c : config) (z : Z) (s : state).
Hypothesis W : wf_dag (c_dag c).
Hypothesis HR : reachable c z s.

(** The log at the record of a task, and at its before_run. *)
Lemma at_before r pre er post : trace s = pre ++ EBeforeRun er (r_node r) :: post ->
  In r (records (trace s)) ->
  exists l1 er' x l2, s_log s = l1 ++ EAfterRun er' r x :: l2 /\ ev_cond c l2 (EAfterRun er' r x) /\ log_ok c l2 /\
    (exists l3, l2 = l3 ++ EBeforeRun er (r_node r) :: rev pre) /\
    (In (ELaunch (r_node r)) l2 \/ l2 = EBeforeRun er (r_node r) :: rev pre).
Proof.
  intros E Hr. pose proof (r_log c z s W HR) as L. pose proof (neat_reach c z s W HR) as N.
  rewrite <- recs_trace in Hr. destruct (rec_at c _ _ L Hr) as (l1 & er' & x & l2 & El & He & L2).
  exists l1, er', x, l2. split; [exact El|]. split; [exact He|]. split; [exact L2|].
  assert (Elog : s_log s = rev post ++ EBeforeRun er (r_node r) :: rev pre).
  { rewrite <- (rev_involutive (s_log s)). change (rev (s_log s)) with (trace s). rewrite E, rev_app_distr. cbn.
    rewrite <- app_assoc. reflexivity. }
  destruct (before_once c z s W HR _ _ _ _ E) as [U1 U2].
  pose proof He as He'. cbn [ev_cond] in He'. destruct He' as (_ & _ & [er1 Hb] & _).
  assert (X : exists l3, l2 = l3 ++ EBeforeRun er (r_node r) :: rev pre).
  { apply in_split in Hb. destruct Hb as (a & b & Eb).
    assert (E3 : s_log s = (l1 ++ EAfterRun er' r x :: a) ++ EBeforeRun er1 (r_node r) :: b).
    { rewrite El, Eb, <- app_assoc. reflexivity. }
    rewrite Elog in E3. destruct (app_cases _ _ _ _ _ _ E3) as [(H1 & H2 & H3)|[(k & Hk1 & Hk2)|(k & Hk1 & Hk2)]].
    - injection H2 as <-. subst b. exists a. exact Eb.
    - exfalso. apply (U1 er1). apply in_rev. rewrite Hk2. apply in_app_iff. right. left. reflexivity.
    - exfalso. apply (U2 er1). apply in_rev. rewrite Hk1. apply in_app_iff. right. left. reflexivity. }
  split; [exact X|].
  assert (N2 : neat_at c l2 (EAfterRun er' r x)).
  { rewrite El in N. apply neat_app in N. exact (proj1 N). }
  cbn [neat_at] in N2. destruct N2 as [H|(er2 & l & H)]; [left; exact H|right].
  destruct X as [l3 X]. rewrite H in X. destruct l3 as [|e l3]; [cbn in X; injection X as -> ->; exact H|exfalso].
  cbn in X. injection X as <- X. rewrite El, H, X in Elog.
  change (l1 ++ EAfterRun er' r x :: EBeforeRun er2 (r_node r) :: l3 ++ EBeforeRun er (r_node r) :: rev pre)
    with (l1 ++ (EAfterRun er' r x :: EBeforeRun er2 (r_node r) :: l3) ++ EBeforeRun er (r_node r) :: rev pre) in Elog.
  rewrite app_assoc in Elog. apply app_inv_tail in Elog. apply (U2 er2). apply in_rev. rewrite <- Elog.
  apply in_app_iff. right. right. left. reflexivity.
Qed.

(** What is recorded of a task is decided when its before_run is called. *)
Lemma hand_built_status r pre er post : trace s = pre ++ EBeforeRun er (r_node r) :: post ->
  In r (records (trace s)) ->
  (r_status r = DEPF <-> bad_requirement c pre (r_node r)) /\
  (r_status r = SKIP <-> ~ bad_requirement c pre (r_node r) /\ ~ Invalidated c (r_node r)) /\
  (In (ELaunch (r_node r)) (trace s) <-> ~ bad_requirement c pre (r_node r) /\ Invalidated c (r_node r)).
Proof.
  intros E Hr. destruct (at_before r pre er post E Hr) as (l1 & er' & x & l2 & El & He & L2 & [l3 E3] & Hcase).
  pose proof (r_log c z s W HR) as L.
  assert (Rp : forall r', In r' (records pre) -> In r' (recs l2)).
  { intros r' H. rewrite <- recs_rev in H. apply recs_In in H. destruct H as (er2 & x2 & H). apply recs_In. exists er2, x2.
    rewrite E3. apply in_app_iff. right. right. exact H. }
  assert (Deps : deps_ok c l2 (r_node r) -> ~ bad_requirement c pre (r_node r)).
  { intros D (b & rb & H1 & H2 & H3 & H4). rewrite (D b rb H1 (Rp rb H2) H3) in H4. discriminate H4. }
  assert (Launch : In (ELaunch (r_node r)) (s_log s) -> ~ bad_requirement c pre (r_node r) /\ Invalidated c (r_node r)).
  { intros H. pose proof (neat_reach c z s W HR) as N. apply in_split in H. destruct H as (a & b & Eb).
    rewrite Eb in N, L. apply neat_app in N. apply log_ok_app in L. destruct L as [[Hl _] _]. destruct N as [(er2 & l & Hn) _].
    cbn [ev_cond] in Hl. destruct Hl as (_ & _ & _ & _ & Hi & _ & Hd). split; [|exact Hi].
    intros (b' & rb & H1 & H2 & H3 & H4).
    assert (Hin : In rb (recs b)).
    { rewrite <- recs_rev in H2. apply recs_In in H2. destruct H2 as (er3 & x3 & H2). apply recs_In. exists er3, x3.
      rewrite Hn. right. assert (l = rev pre) as ->; [|exact H2].
      assert (Elog : s_log s = rev post ++ EBeforeRun er (r_node r) :: rev pre).
      { rewrite <- (rev_involutive (s_log s)). change (rev (s_log s)) with (trace s). rewrite E, rev_app_distr. cbn.
        rewrite <- app_assoc. reflexivity. }
      assert (Elog2 : s_log s = (a ++ [ELaunch (r_node r)]) ++ EBeforeRun er2 (r_node r) :: l).
      { rewrite Eb, Hn, <- app_assoc. reflexivity. }
      destruct (before_once c z s W HR _ _ _ _ E) as [U1 U2]. rewrite Elog in Elog2.
      destruct (app_cases _ _ _ _ _ _ Elog2) as [(G1 & G2 & G3)|[(k & Hk1 & Hk2)|(k & Hk1 & Hk2)]].
      - symmetry. exact G3.
      - exfalso. apply (U1 er2). apply in_rev. rewrite Hk2. apply in_app_iff. right. left. reflexivity.
      - exfalso. apply (U2 er2). apply in_rev. rewrite Hk1. apply in_app_iff. right. left. reflexivity. }
    rewrite (Hd b' rb H1 Hin H3) in H4. discriminate H4. }
  assert (Sub : In (ELaunch (r_node r)) l2 -> In (ELaunch (r_node r)) (s_log s)).
  { intros H. rewrite El. apply in_app_iff. right. right. exact H. }
  pose proof (record_facts c z s W HR r Hr) as [_ [_ F]]. cbn zeta in F.
  rewrite trace_in. cbn [ev_cond] in He. destruct He as (_ & _ & _ & _ & _ & (_ & _ & Hst) & _).
  destruct (r_status r) eqn:Es.
  - (* OK *) destruct Hst as (Hi & Hl & _). destruct (Launch (Sub Hl)) as [G1 G2].
    split; [split; [discriminate|tauto]|]. split; [split; [discriminate|tauto]|]. split; [tauto|intros _; exact (Sub Hl)].
  - (* SKIP *) destruct Hst as (Hi & Hd & Hl & _). pose proof (Deps Hd) as G.
    split; [split; [discriminate|tauto]|]. split; [tauto|]. split; [intros H; apply Launch, H|tauto].
  - (* DEPF *) destruct Hst as ((m & r' & H1 & H2 & H3 & H4) & Hl & _).
    assert (B : bad_requirement c pre (r_node r)).
    { destruct Hcase as [H|H]; [destruct (Hl H)|]. exists m, r'. split; [exact H1|]. split; [|auto].
      rewrite <- recs_rev. rewrite H in H2. apply recs_In in H2. destruct H2 as (er2 & x2 & [H2|H2]); [discriminate H2|].
      apply recs_In. exists er2, x2. exact H2. }
    split; [tauto|]. split; [split; [discriminate|tauto]|]. split; [intros H; apply Launch, H|tauto].
  - (* FAIL *) destruct Hst as (Hi & Hl & _). destruct (Launch (Sub Hl)) as [G1 G2].
    split; [split; [discriminate|tauto]|]. split; [split; [discriminate|tauto]|]. split; [tauto|intros _; exact (Sub Hl)].
Qed.
End Fixed.

(** A requirement that is ordered, however indirectly. *)
Lemma ordered_requirement : forall c z s a b rb,
  wf_dag (c_dag c) -> reachable c z s ->
  requires (c_dag c) a b -> clos_trans nid (runs_after (c_dag c)) a b ->
  In rb (records (trace s)) -> r_node rb = b -> is_bad (r_status rb) = true ->
  ~ In (EBegin a) (trace s) /\
  forall ra, In ra (records (trace s)) -> r_node ra = a -> r_status ra = DEPF.
Proof.
  intros c z s a b rb W HR Hq Hp Hrb Eb Hbad. pose proof (r_log c z s W HR) as L.
  assert (Old : forall l1 e l2, s_log s = l1 ++ e :: l2 -> after_recorded c l2 a -> In rb (recs l2)).
  { intros l1 e l2 El Ha. assert (L2 : log_ok c l2).
    { rewrite El in L. apply log_ok_app in L. exact (proj2 L). }
    destruct (after_closed c l2 a b L2 Ha Hp) as [rb' [H1 H2]].
    assert (rb' = rb) as <-; [|exact H1].
    eapply (rec_unique c); [exact L| |rewrite recs_trace; exact Hrb|congruence].
    apply recs_In in H1. destruct H1 as (er & x & H1). apply recs_In. exists er, x. rewrite El.
    apply in_app_iff. right. right. exact H1. }
  assert (NL : ~ In (ELaunch a) (s_log s)).
  { intros H. apply in_split in H. destruct H as (l1 & l2 & El). pose proof L as L'. rewrite El in L'.
    apply log_ok_app in L'. destruct L' as [[He _] _]. cbn [ev_cond] in He. destruct He as (_ & _ & _ & Ha & _ & _ & Hd).
    rewrite (Hd b rb Hq (Old _ _ _ El Ha) Eb) in Hbad. discriminate Hbad. }
  split.
  - intros H. apply trace_in in H. apply NL. apply in_split in H. destruct H as (l1 & l2 & El). pose proof L as L'. rewrite El in L'.
    apply log_ok_app in L'. destruct L' as [[He _] _]. cbn [ev_cond] in He. destruct He as (Hl & _). rewrite El.
    apply in_app_iff. right. right. exact Hl.
  - intros ra Hra Ea. rewrite <- recs_trace in Hra. destruct (rec_at c _ _ L Hra) as (l1 & er & x & l2 & El & He & _).
    cbn [ev_cond] in He. destruct He as (_ & _ & _ & _ & Ha & (_ & _ & Hst) & _). rewrite Ea in *.
    assert (Sub : ~ In (ELaunch a) l2).
    { intros H. apply NL. rewrite El. apply in_app_iff. right. right. exact H. }
    destruct (r_status ra); [|destruct Hst as (_ & Hd & _)|reflexivity|]; exfalso.
    + destruct Hst as (_ & Hl & _). exact (Sub Hl).
    + rewrite (Hd b rb Hq (Old _ _ _ El Ha) Eb) in Hbad. discriminate Hbad.
    + destruct Hst as (_ & Hl & _). exact (Sub Hl).
Qed.

(** One that is not. *)
Lemma unordered_requirement : forall c z a b o,
  wf_dag (c_dag c) -> executable c -> In a (node_ids (c_dag c)) -> In b (node_ids (c_dag c)) -> a <> b ->
  Invalidated c a -> Invalidated c b -> 2 <= c_threads c ->
  ~ held_up_by c a b -> ~ held_up_by c b a ->
  exists s, reachable c z s /\ In (EBegin a) (trace s) /\ In (EEnd b o) (trace s).
Proof.
  intros c z a b o W HE Ha Hb Hab Ia Ib Ht H1 H2.
  destruct (all_at_once c z [a; b] [a; b] (fun _ => o) W HE) as (s & pre & HR & E).
  - constructor; [intros [H|[]]; congruence|]. constructor; [intros []|constructor].
  - intros x [<-|[<-|[]]]; assumption.
  - intros x [<-|[<-|[]]]; assumption.
  - exact Ht.
  - intros x y [<-|[<-|[]]] [<-|[<-|[]]] N; congruence.
  - apply Permutation_refl.
  - exists s. split; [exact HR|]. rewrite E. split; apply in_app_iff; right; cbn; tauto.
Qed.
