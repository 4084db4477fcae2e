(** Lemmas about the vocabulary of Spec/Trace.v, over newest-first logs. *)
From Coq Require Import Lia String.
From Verif Require Import Model.Common Model.Records Model.Jobs Model.TaskSet Model.Dag
     Model.Sched Model.Exec Spec.Graph Spec.Trace Proofs.Sets.
Open Scope nat_scope.
Open Scope list_scope.

Definition recs (log : list event) : list run_record := records (rev log).
Definition recorded_l (log : list event) (n : nid) : Prop :=
  exists r, In r (recs log) /\ r_node r = n.

Lemma records_app a b : records (a ++ b) = records a ++ records b.
Proof.
  induction a as [|e a IH]; [reflexivity|]. destruct e; cbn; rewrite ?IH; reflexivity.
Qed.

Lemma recs_cons e l : recs (e :: l) = recs l ++ records [e].
Proof. unfold recs. cbn [rev]. apply records_app. Qed.

Lemma recs_after er r x l : recs (EAfterRun er r x :: l) = recs l ++ [r].
Proof. apply recs_cons. Qed.

Definition is_after (e : event) : bool := match e with EAfterRun _ _ _ => true | _ => false end.

Lemma recs_other e l : is_after e = false -> recs (e :: l) = recs l.
Proof.
  intros H. rewrite recs_cons. destruct e; try discriminate; apply app_nil_r.
Qed.

Lemma records_In tr r : In r (records tr) <-> exists er x, In (EAfterRun er r x) tr.
Proof.
  induction tr as [|e tr IH].
  - cbn. split; [tauto|]. intros [? [? []]].
  - split.
    + intros H. destruct e; cbn in H; try (apply IH in H; destruct H as [er' [x' H]]; exists er', x'; right; exact H).
      destruct H as [->|H]; [exists er, n; left; reflexivity|].
      apply IH in H. destruct H as [er' [x' H]]; exists er', x'; right; exact H.
    + intros [er [x [->|H]]]; [left; reflexivity|].
      assert (In r (records tr)) by (apply IH; eauto). destruct e; cbn; auto.
Qed.

Lemma recs_In log r : In r (recs log) <-> exists er x, In (EAfterRun er r x) log.
Proof.
  unfold recs. rewrite records_In. split; intros [er [x H]]; exists er, x.
  - apply in_rev, H.
  - apply -> in_rev. exact H.
Qed.

Lemma recorded_mono e l n : recorded_l l n -> recorded_l (e :: l) n.
Proof.
  intros [r [H E]]. exists r. split; [|exact E]. rewrite recs_cons. apply in_app_iff. auto.
Qed.

Lemma recorded_app a l n : recorded_l l n -> recorded_l (a ++ l) n.
Proof. induction a as [|e a IH]; intros H; [exact H|]. apply recorded_mono, IH, H. Qed.

Definition run_l (log : list event) : list nid := running (rev log).

Lemma run_l_cons e l : run_l (e :: l) = track (run_l l) e.
Proof. unfold run_l, running. cbn [rev]. rewrite fold_left_app. reflexivity. Qed.

Lemma count_status_snoc k rs r :
  count_status k (rs ++ [r]) = count_status k rs + (if status_eqb (r_status r) k then 1 else 0).
Proof.
  unfold count_status. rewrite filter_app, app_length. cbn. destruct (status_eqb (r_status r) k); reflexivity.
Qed.

Lemma stat_incr_get s k k' :
  stat_get (stat_incr s k) k' = stat_get s k' + (if status_eqb k k' then 1 else 0).
Proof. destruct k, k'; cbn; lia. Qed.

Lemma accounts_push c rs er r : accounts c rs er -> accounts c (rs ++ [r]) (push er r).
Proof.
  intros [H1 [H2 H3]]. split; [|split].
  - cbn. rewrite H1. reflexivity.
  - exact H2.
  - intros k. cbn. rewrite stat_incr_get, H3, count_status_snoc. reflexivity.
Qed.
