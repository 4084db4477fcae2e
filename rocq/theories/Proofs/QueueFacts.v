(** The default visitor's tasks in progress, exactly (C51). *)
From Coq Require Import Lia String Bool.
From Verif Require Import Model.Common Model.Records Model.Jobs Model.TaskSet Model.Dag
     Model.Sched Model.Exec Model.Visitor Spec.Graph Spec.Trace Spec.Report
     Proofs.Sets Proofs.SchedFacts Proofs.InvalFacts Proofs.TraceFacts Proofs.ExecInv
     Proofs.ExecStep Proofs.ExecCtl Proofs.LogFacts Proofs.ExecProps Proofs.ExecProps2
     Proofs.StepCases Proofs.ExecProps3 Proofs.SlotNodes Proofs.VisitorFacts.
Open Scope nat_scope.
Open Scope list_scope.

Section Queue.
Variables (c : config) (z : Z) (s : state) (vb : bool).
Hypothesis Hwf : wf_dag (c_dag c).
Hypothesis HR : reachable c z s.

Definition queue_is (pre : list event) (q : list nid) : Prop :=
  forall n, In n q <-> shown c vb n /\ (exists er, In (EBeforeRun er n) pre) /\
    (forall er r, ~ In (EAfterRun er r n) pre) /\ (forall er, ~ In (EAfterExec er) pre).

Lemma in_snoc {A} (x : A) l y : In x (l ++ [y]) <-> In x l \/ x = y.
Proof. rewrite in_app_iff. cbn. intuition. Qed.

Lemma queue_same pre e q : queue_is pre q ->
  (forall n, ~ exists er, e = EBeforeRun er n) -> (forall er r n, e <> EAfterRun er r n) -> (forall er, e <> EAfterExec er) ->
  queue_is (pre ++ [e]) q.
Proof.
  intros H H1 H2 H3 n. rewrite (H n). split; intros (A & [er B] & C & D); (split; [exact A|]).
  - split; [exists er; apply in_snoc; auto|]. split; [intros er' r; rewrite in_snoc; intros [G|G]; [exact (C _ _ G)|exact (H2 _ _ _ (eq_sym G))]|].
    intros er'. rewrite in_snoc. intros [G|G]; [exact (D _ G)|exact (H3 _ (eq_sym G))].
  - split; [exists er; apply in_snoc in B; destruct B as [B|B]; [exact B|destruct (H1 n); exists er; auto]|].
    split; [intros er' r G; apply (C er' r), in_snoc; auto|intros er' G; apply (D er'), in_snoc; auto].
Qed.

Lemma queue_exact : forall pre post, trace s = pre ++ post ->
  exists q out, watch_exec c (print_visitor vb) pre = VOk (Vis vb q) out /\ queue_is pre q.
Proof.
  induction pre as [|e pre IH] using rev_ind; intros post E.
  - exists [], []. split; [reflexivity|]. intros n. split; [intros []|]. intros (_ & [er []] & _).
  - assert (E0 : trace s = pre ++ e :: post) by (rewrite E, <- app_assoc; reflexivity).
    destruct (IH _ E0) as (q & out & E1 & Q).
    destruct (watch_log c Hwf vb _ (trace_prefix c z s Hwf HR (pre ++ [e]) post E)) as (q2 & out2 & E2 & _).
    rewrite rev_involutive in E2. exists q2, out2. split; [exact E2|].
    unfold watch_exec in *. rewrite watch_app, E1, watch_one in E2.
    assert (NX : forall er, In (EAfterExec er) pre -> e = EDestroyed).
    { intros er G. apply in_split in G. destruct G as (a & b & ->). rewrite <- app_assoc in E0. cbn [app] in E0.
      destruct (after_execution_last c z s a er _ Hwf HR E0) as [[G|G] _]; destruct b; inversion G; try reflexivity; destruct b; discriminate. }
    assert (Skip : q2 = q -> (forall n, ~ exists er, e = EBeforeRun er n) -> (forall er r n, e <> EAfterRun er r n) ->
                   (forall er, e <> EAfterExec er) -> queue_is (pre ++ [e]) q2).
    { intros ->. apply queue_same. exact Q. }
    destruct e; cbn [visit v_verbose v_queued] in E2; unfold with_node in E2;
      try (apply Skip; [|intros ? [? ?]; discriminate|intros; discriminate|intros; discriminate];
           repeat match type of E2 with context [match look_dag c ?x with _ => _ end] => destruct (look_dag c x) end; try discriminate E2;
           injection E2 as <- _; reflexivity).
    + (* before_run *)
      destruct (look_dag c n) as [y|] eqn:Ly; [|discriminate E2].
      assert (Hy : exists x, lookup_node (d_nodes (c_dag c)) n = Some x /\ y = VNode (n_name x) (t_hidden (c_task c (n_task x))) (t_has_job (c_task c (n_task x)))).
      { unfold look_dag in Ly. destruct (lookup_node _ n) as [x|]; [|discriminate Ly]. exists x. split; [reflexivity|]. congruence. }
      destruct Hy as (x & Ex & ->). cbn [vn_hidden] in E2.
      assert (NG : forall er' r, ~ In (EAfterRun er' r n) pre).
      { intros er' r G. apply in_split in G. destruct G as (a & b & Eab).
        assert (E3 : trace s = a ++ EAfterRun er' r n :: (b ++ EBeforeRun er n :: post)).
        { rewrite E0, Eab, <- app_assoc. reflexivity. }
        destruct (after_run_started c z s _ _ _ _ _ Hwf HR E3) as [er2 G].
        destruct (before_once c z s Hwf HR _ _ _ _ E0) as [U _]. apply (U er2). rewrite Eab. apply in_app_iff. auto. }
      assert (NXe : forall er', ~ In (EAfterExec er') pre) by (intros er' G; discriminate (NX _ G)).
      intros k. destruct (negb (t_hidden (c_task c (n_task x))) || vb) eqn:Eh; injection E2 as <- _.
      * rewrite set_insert_In, (Q k). split.
        -- intros [->|(A & [er1 B] & C & D)].
           ++ split; [exists x; split; [exact Ex|]; apply orb_true_iff in Eh; destruct Eh as [Eh|Eh]; [left; apply negb_true_iff, Eh|right; exact Eh]|].
              split; [exists er; apply in_snoc; auto|].
              split; [intros er' r; rewrite in_snoc; intros [G|G]; [exact (NG _ _ G)|discriminate G]|].
              intros er'. rewrite in_snoc. intros [G|G]; [exact (NXe _ G)|discriminate G].
           ++ split; [exact A|]. split; [exists er1; apply in_snoc; auto|].
              split; [intros er' r; rewrite in_snoc; intros [G|G]; [exact (C _ _ G)|discriminate G]|].
              intros er'. rewrite in_snoc. intros [G|G]; [exact (D _ G)|discriminate G].
        -- intros (A & [er1 B] & C & D). apply in_snoc in B. destruct B as [B|B]; [right|left; congruence].
           split; [exact A|]. split; [exists er1; exact B|].
           split; [intros er' r G; apply (C er' r), in_snoc; auto|intros er' G; apply (D er'), in_snoc; auto].
      * assert (Hsh : ~ shown c vb n).
        { intros (x' & Ex' & H). rewrite Ex in Ex'. injection Ex' as <-. apply orb_false_iff in Eh. destruct Eh as [Eh1 Eh2].
          apply negb_false_iff in Eh1. destruct H; congruence. }
        rewrite (Q k). split.
        -- intros (A & [er1 B] & C & D). split; [exact A|]. split; [exists er1; apply in_snoc; auto|].
           split; [intros er' r; rewrite in_snoc; intros [G|G]; [exact (C _ _ G)|discriminate G]|].
           intros er'. rewrite in_snoc. intros [G|G]; [exact (D _ G)|discriminate G].
        -- intros (A & [er1 B] & C & D). apply in_snoc in B. destruct B as [B|B].
           ++ split; [exact A|]. split; [exists er1; exact B|].
              split; [intros er' r G; apply (C er' r), in_snoc; auto|intros er' G; apply (D er'), in_snoc; auto].
           ++ injection B as -> ->. contradiction.
    + (* after_run *)
      assert (Eq : q2 = set_erase n q).
      { destruct (set_erase n q) as [|m q'] eqn:Es; [injection E2 as <- _; reflexivity|].
        destruct (look_dag c m); [injection E2 as <- _; reflexivity|discriminate E2]. }
      assert (NXe : forall er', ~ In (EAfterExec er') pre) by (intros er' G; discriminate (NX _ G)).
      intros k. rewrite Eq. unfold set_erase. rewrite filter_In, negb_true_iff, Nat.eqb_neq, (Q k). split.
      * intros ((A & [er1 B] & C & D) & N). split; [exact A|]. split; [exists er1; apply in_snoc; auto|].
        split; [intros er' r0; rewrite in_snoc; intros [G|G]; [exact (C _ _ G)|congruence]|].
        intros er'. rewrite in_snoc. intros [G|G]; [exact (D _ G)|discriminate G].
      * intros (A & [er1 B] & C & D). apply in_snoc in B. destruct B as [B|B]; [|discriminate B].
        split; [split; [exact A|]; split; [exists er1; exact B|]|].
        -- split; [intros er' r0 G; apply (C er' r0), in_snoc; auto|intros er' G; apply (D er'), in_snoc; auto].
        -- intros ->. apply (C er r), in_snoc. auto.
    + (* after_execution *)
      injection E2 as <- _. intros k. split; [intros []|]. intros (_ & _ & _ & D). destruct (D er). apply in_snoc. auto.
Qed.
End Queue.

Lemma in_progress_exact : forall c z s verbose pre post,
  wf_dag (c_dag c) -> reachable c z s -> trace s = pre ++ post ->
  exists q out, watch_exec c (print_visitor verbose) pre = VOk (Vis verbose q) out /\
    forall n, In n q <-> shown c verbose n /\ (exists er, In (EBeforeRun er n) pre) /\
      (forall er r, ~ In (EAfterRun er r n) pre) /\ (forall er, ~ In (EAfterExec er) pre).
Proof. intros c z s vb pre post Hwf HR E. exact (queue_exact c z s vb Hwf HR pre post E). Qed.
