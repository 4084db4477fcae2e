(** Repaired jobs and further demands (C111). *)
From Coq Require Import String Relations Permutation Lia.
From Verif Require Import Model.Common Model.Records Model.Jobs Model.TaskSet Model.Dag
     Model.Sched Model.Exec Model.ExecSet Spec.Graph Spec.Trace Spec.Tasks Spec.Better
     Proofs.Sets Proofs.LogFacts Proofs.ExecProps Proofs.TaskFacts Proofs.SetExec Proofs.RedundantFacts Proofs.LocalityFacts.
Open Scope nat_scope.
Open Scope list_scope.

Section Fate.
  Variables (st : store) (ts : task_set) (filt : string) (iv : tid -> inval_answer) (addr : tid -> nid) (c : config).
  Variables (z : Z) (s : state).
  Hypothesis X : execution_of st ts filt iv addr c.
  Hypothesis HR : reachable c z s.

  Lemma req_dep n m : clos_trans nid (requires (c_dag c)) n m -> forall t, selected st ts filt t -> n = addr t ->
    exists u, selected st ts filt u /\ m = addr u /\ clos_trans tid (depends_on st) t u.
  Proof.
    destruct (exec_facts _ _ _ _ _ _ X) as (_ & _ & _ & _ & _ & Hinj & He & _).
    assert (Hs : forall a b t, requires (c_dag c) a b -> selected st ts filt t -> a = addr t ->
              exists u, selected st ts filt u /\ b = addr u /\ depends_on st t u).
    { intros a b t H Ht Ea. apply He in H. destruct H as (x & y & Hx & Hy & E1 & E2 & H).
      assert (x = t) by (apply Hinj; congruence). subst x. exists y. split; [exact Hy|]. split; [exact E2|].
      destruct H as [H|[[H _]|[H _]]]; [exact H|discriminate H|discriminate H]. }
    intros H. apply clos_trans_t1n in H. induction H as [a b H|a x b H _ IH]; intros t Ht Ea.
    - destruct (Hs a b t H Ht Ea) as (u & Hu & E & D). exists u. split; [exact Hu|]. split; [exact E|]. now apply t_step.
    - destruct (Hs a x t H Ht Ea) as (u & Hu & E & D). destruct (IH u Hu E) as (v & Hv & E' & D').
      exists v. split; [exact Hv|]. split; [exact E'|]. eapply t_trans; [apply t_step; exact D|exact D'].
  Qed.

  Lemma rec_task r : In r (records (trace s)) -> selected st ts filt (r_task r) /\ r_node r = addr (r_task r).
  Proof.
    intros Hr. destruct (exec_facts _ _ _ _ _ _ X) as (W & _ & _ & T & N & _).
    destruct (record_task c z s r W HR Hr) as (Hn & Et & _). destruct (N _ Hn) as (t & Ht & E).
    destruct (T t Ht) as (_ & Ett & _). rewrite E, Ett in Et. rewrite Et, E. auto.
  Qed.

  Lemma behind_recorded r u : In r (records (trace s)) -> clos_trans tid (depends_on st) (r_task r) u ->
    exists ru, In ru (records (trace s)) /\ r_task ru = u.
  Proof.
    intros Hr D. destruct (exec_facts _ _ _ _ _ _ X) as (W & RA & _ & T & _). destruct (rec_task r Hr) as [Sr Er].
    pose proof (dep_path _ _ _ _ _ _ X _ _ Sr D) as P. rewrite <- Er in P.
    destruct (req_recorded c z s W RA HR (r_node r) (addr u)) as (ru & H1 & H2); [exists r; auto|exact P|].
    exists ru. split; [exact H1|]. destruct (record_task c z s ru W HR H1) as (_ & -> & _). rewrite H2.
    apply T. eapply sel_trans; [exact Sr|exact D].
  Qed.

  Lemma fate_blocked r : In r (records (trace s)) ->
    (r_status r = DEPF <->
     exists rb, In rb (records (trace s)) /\ clos_trans tid (depends_on st) (r_task r) (r_task rb) /\ r_status rb = FAIL).
  Proof.
    intros Hr. destruct (exec_facts _ _ _ _ _ _ X) as (W & RA & _). destruct (rec_task r Hr) as [Sr Er].
    destruct (status_rule c z s r W RA HR Hr) as [A _]. cbn zeta in A. rewrite A, (bad_iff c z s W RA HR r Hr).
    split; intros (rb & H1 & H2 & H3); exists rb; (split; [exact H1|]; split; [|exact H3]); destruct (rec_task rb H1) as [Sb Eb].
    - destruct (req_dep _ _ H2 _ Sr Er) as (u & Su & Eu & D). destruct (exec_facts _ _ _ _ _ _ X) as (_ & _ & _ & _ & _ & Hinj & _).
      assert (u = r_task rb) by (apply Hinj; congruence). now subst u.
    - rewrite Er, Eb. apply (dep_path _ _ _ _ _ _ X); assumption.
  Qed.

  Lemma fate_ran r : In r (records (trace s)) -> r_status r = OK \/ r_status r = FAIL ->
    task_invalidated st ts filt iv (r_task r) /\
    exists o, In (EEnd (addr (r_task r)) o) (trace s) /\ (r_status r = FAIL <-> job_code o <> 0%Z).
  Proof.
    intros Hr Hs. destruct (exec_facts _ _ _ _ _ _ X) as (W & RA & _). destruct (rec_task r Hr) as [Sr Er].
    destruct (record_facts c z s W HR r Hr) as (_ & _ & F). rewrite Er in F.
    assert (G : Invalidated c (addr (r_task r)) /\ exists o, In (EEnd (addr (r_task r)) o) (trace s) /\
              r_retcode r = rr_retcode (run_lambda o) /\ (r_status r = FAIL <-> r_retcode r <> 0%Z)).
    { destruct (r_status r); try (destruct Hs; discriminate);
        destruct F as (F1 & _ & _ & _ & o & G1 & G2 & _ & _ & G3); (split; [exact F1|]; exists o; auto). }
    destruct G as (G1 & o & G2 & G3 & G4). split; [apply (set_invalidated _ _ _ _ _ _ X); assumption|].
    exists o. split; [exact G2|]. rewrite G4, G3. destruct o; reflexivity.
  Qed.

  Lemma fate_skipped r : In r (records (trace s)) -> r_status r = SKIP -> ~ task_invalidated st ts filt iv (r_task r).
  Proof.
    intros Hr Hs. destruct (exec_facts _ _ _ _ _ _ X) as (W & RA & _). destruct (rec_task r Hr) as [Sr Er].
    destruct (record_facts c z s W HR r Hr) as (_ & _ & F). rewrite Hs, Er in F. destruct F as (F & _).
    rewrite <- (set_invalidated _ _ _ _ _ _ X _ Sr). exact F.
  Qed.

  (** One record for each task. *)
  Lemma fate_one r r' : In r (records (trace s)) -> In r' (records (trace s)) -> r_task r = r_task r' -> r = r'.
  Proof.
    intros H H' E. destruct (exec_facts _ _ _ _ _ _ X) as (W & _). destruct (rec_task r H) as [_ E1]. destruct (rec_task r' H') as [_ E2].
    apply (same_record c z s W HR); [exact H|exact H'|congruence].
  Qed.
End Fate.

Section Two.
  Variables (st : store) (ts : task_set) (filt : string) (addr1 addr2 : tid -> nid) (c1 c2 : config).
  Variables (iv1 iv2 : tid -> inval_answer) (z1 z2 : Z) (s1 s2 : state).
  Hypothesis X1 : execution_of st ts filt iv1 addr1 c1.
  Hypothesis X2 : execution_of st ts filt iv2 addr2 c2.
  Hypothesis R1 : reachable c1 z1 s1.
  Hypothesis R2 : reachable c2 z2 s2.

  Section Repair.
  Hypothesis Hiv : forall t, iv1 t = iv2 t.
  Hypothesis Hbetter : forall t o1 o2, selected st ts filt t ->
    In (EEnd (addr1 t) o1) (trace s1) -> In (EEnd (addr2 t) o2) (trace s2) -> job_code o1 = 0%Z -> job_code o2 = 0%Z.

  Lemma same_inval t : task_invalidated st ts filt iv1 t <-> task_invalidated st ts filt iv2 t.
  Proof.
    split; intros (u & log & P & E); exists u, log; (split; [exact P|]); [rewrite <- Hiv|rewrite Hiv]; exact E.
  Qed.

  Lemma blocked_before r1 r2 : In r1 (records (trace s1)) -> In r2 (records (trace s2)) -> r_task r1 = r_task r2 ->
    r_status r2 = DEPF -> r_status r1 = DEPF.
  Proof.
    intros H1 H2 E S2. apply (fate_blocked _ _ _ _ _ _ _ _ X2 R2 r2 H2) in S2. destruct S2 as (b2 & B1 & B2 & B3).
    rewrite <- E in B2. destruct (behind_recorded _ _ _ _ _ _ _ _ X1 R1 r1 _ H1 B2) as (b1 & C1 & C2).
    apply (fate_blocked _ _ _ _ _ _ _ _ X1 R1 r1 H1).
    destruct (r_status b1) eqn:Sb.
    - exfalso. destruct (fate_ran _ _ _ _ _ _ _ _ X1 R1 b1 C1 (or_introl Sb)) as (_ & o1 & O1 & Z1).
      destruct (fate_ran _ _ _ _ _ _ _ _ X2 R2 b2 B1 (or_intror B3)) as (_ & o2 & O2 & Z2).
      apply Z2 in B3. apply B3. rewrite C2 in O1. apply (Hbetter (r_task b2) o1 o2); [|exact O1|exact O2|].
      + apply (rec_task _ _ _ _ _ _ _ _ X2 R2 b2 B1).
      + destruct (Z.eq_dec (job_code o1) 0) as [Z|Z]; [exact Z|]. apply Z1 in Z. congruence.
    - exfalso. apply (fate_skipped _ _ _ _ _ _ _ _ X1 R1 b1 C1 Sb). rewrite C2. apply same_inval.
      apply (fate_ran _ _ _ _ _ _ _ _ X2 R2 b2 B1). auto.
    - apply (fate_blocked _ _ _ _ _ _ _ _ X1 R1 b1 C1) in Sb. destruct Sb as (b & D1 & D2 & D3).
      exists b. split; [exact D1|]. split; [|exact D3]. eapply t_trans; [exact B2|]. rewrite <- C2. exact D2.
    - exists b1. split; [exact C1|]. split; [rewrite C2; exact B2|exact Sb].
  Qed.

  Lemma repaired r1 r2 : In r1 (records (trace s1)) -> In r2 (records (trace s2)) -> r_task r1 = r_task r2 ->
    improves (r_status r1) (r_status r2).
  Proof.
    intros H1 H2 E. pose proof (blocked_before r1 r2 H1 H2 E) as HD. unfold improves.
    assert (Hin : (r_status r1 = OK \/ r_status r1 = FAIL) -> r_status r2 = SKIP -> False).
    { intros A B. apply (fate_skipped _ _ _ _ _ _ _ _ X2 R2 r2 H2 B). rewrite <- E. apply same_inval.
      apply (fate_ran _ _ _ _ _ _ _ _ X1 R1 r1 H1 A). }
    assert (Hin' : (r_status r2 = OK \/ r_status r2 = FAIL) -> r_status r1 = SKIP -> False).
    { intros A B. apply (fate_skipped _ _ _ _ _ _ _ _ X1 R1 r1 H1 B). rewrite E. apply same_inval.
      apply (fate_ran _ _ _ _ _ _ _ _ X2 R2 r2 H2 A). }
    assert (Hok : r_status r1 = OK -> r_status r2 = FAIL -> False).
    { intros A B. destruct (fate_ran _ _ _ _ _ _ _ _ X1 R1 r1 H1 (or_introl A)) as (_ & o1 & O1 & Z1).
      destruct (fate_ran _ _ _ _ _ _ _ _ X2 R2 r2 H2 (or_intror B)) as (_ & o2 & O2 & Z2).
      apply Z2 in B. apply B. rewrite E in O1. apply (Hbetter (r_task r2) o1 o2); [|exact O1|exact O2|].
      - apply (rec_task _ _ _ _ _ _ _ _ X2 R2 r2 H2).
      - destruct (Z.eq_dec (job_code o1) 0) as [Z|Z]; [exact Z|]. apply Z1 in Z. congruence. }
    destruct (r_status r1), (r_status r2); auto; try (specialize (HD eq_refl); discriminate HD); exfalso; auto.
  Qed.

  (** What changed has a repaired job behind it. *)
  Lemma repaired_why r1 r2 : In r1 (records (trace s1)) -> In r2 (records (trace s2)) -> r_task r1 = r_task r2 ->
    r_status r1 <> r_status r2 ->
    exists b1 b2, In b1 (records (trace s1)) /\ In b2 (records (trace s2)) /\ r_task b1 = r_task b2 /\
      clos_refl_trans tid (depends_on st) (r_task r1) (r_task b1) /\ r_status b1 = FAIL /\ r_status b2 = OK.
  Proof.
    intros H1 H2 E Hne. destruct (repaired r1 r2 H1 H2 E) as [A|[[A B]|A]]; [contradiction| |].
    - exists r1, r2. split; [exact H1|]. split; [exact H2|]. split; [exact E|]. split; [apply rt_refl|]. auto.
    - pose proof A as A'. apply (fate_blocked _ _ _ _ _ _ _ _ X1 R1 r1 H1) in A'. destruct A' as (b1 & B1 & B2 & B3).
      pose proof B2 as D. rewrite E in D. destruct (behind_recorded _ _ _ _ _ _ _ _ X2 R2 r2 _ H2 D) as (b2 & C1 & C2).
      exists b1, b2. split; [exact B1|]. split; [exact C1|]. split; [symmetry; exact C2|].
      split; [apply clos_t_rt; exact B2|]. split; [exact B3|].
      destruct (repaired b1 b2 B1 C1 (eq_sym C2)) as [I|[[_ I]|I]]; [exfalso|exact I|rewrite B3 in I; discriminate I].
      apply Hne. rewrite A. symmetry. apply (fate_blocked _ _ _ _ _ _ _ _ X2 R2 r2 H2).
      exists b2. split; [exact C1|]. split; [rewrite C2; exact D|congruence].
  Qed.
  End Repair.

  Section Demands.
  Hypothesis Hmore : forall t log, selected st ts filt t -> iv1 t = IvRet true log -> exists log', iv2 t = IvRet true log'.
  Hypothesis Hgood : forall r, In r (records (trace s2)) -> r_status r <> FAIL.

  Lemma more_inval t : selected st ts filt t -> task_invalidated st ts filt iv1 t -> task_invalidated st ts filt iv2 t.
  Proof.
    intros Ht (u & log & P & E). assert (Su : selected st ts filt u).
    { apply clos_rt_rtn1 in P. destruct P as [|y z (_ & H & _) _]; assumption. }
    destruct (Hmore u log Su E) as (log' & E'). exists u, log'. auto.
  Qed.

  Lemma more_demands r1 r2 : In r1 (records (trace s1)) -> In r2 (records (trace s2)) -> r_task r1 = r_task r2 ->
    r_status r1 = OK \/ r_status r1 = FAIL -> r_status r2 = OK.
  Proof.
    intros H1 H2 E A. destruct (fate_ran _ _ _ _ _ _ _ _ X1 R1 r1 H1 A) as (I & _).
    apply more_inval in I; [|apply (rec_task _ _ _ _ _ _ _ _ X1 R1 r1 H1)]. rewrite E in I.
    destruct (r_status r2) eqn:S2; [reflexivity| | |].
    - destruct (fate_skipped _ _ _ _ _ _ _ _ X2 R2 r2 H2 S2 I).
    - apply (fate_blocked _ _ _ _ _ _ _ _ X2 R2 r2 H2) in S2. destruct S2 as (b & B1 & _ & B3). destruct (Hgood b B1 B3).
    - destruct (Hgood r2 H2 S2).
  Qed.
  End Demands.
End Two.
