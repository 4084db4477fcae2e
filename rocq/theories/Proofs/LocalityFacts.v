(** What the fate of a task depends on (C102). *)
From Coq Require Import String Relations Lia.
From Verif Require Import Model.Common Model.Records Model.Jobs Model.TaskSet Model.Dag
     Model.Sched Model.Exec Model.ExecSet Spec.Graph Spec.Trace Spec.Tasks Spec.Locality
     Proofs.Sets Proofs.TraceFacts Proofs.ExecInv Proofs.LogFacts Proofs.ExecProps Proofs.ExecProps2
     Proofs.ExecProps3 Proofs.ExecProps4 Proofs.SetExec.
Open Scope nat_scope.
Open Scope list_scope.

Section Two.
Variables (c1 c2 : config) (R : nid -> nid -> Prop).
Hypothesis AL : alike c1 c2 R.

Lemma alike_invalidated n1 n2 : R n1 n2 -> (Invalidated c1 n1 <-> Invalidated c2 n2).
Proof.
  intros HR. split; intros (m & Hp & Hj).
  - assert (G : forall x y, clos_refl_trans nid (inval_by (c_dag c1)) x y -> forall x2, R x x2 ->
       exists y2, clos_refl_trans nid (inval_by (c_dag c2)) x2 y2 /\ R y y2).
    { induction 1 as [x y H|x|x y z _ IH1 _ IH2]; intros x2 Hx.
      - destruct (al_inv _ _ _ AL _ _ _ Hx H) as (y2 & H2 & HR2). exists y2. split; [apply rt_step; exact H2|exact HR2].
      - exists x2. split; [apply rt_refl|exact Hx].
      - destruct (IH1 _ Hx) as (y2 & P1 & R1). destruct (IH2 _ R1) as (z2 & P2 & R2).
        exists z2. split; [eapply rt_trans; eassumption|exact R2]. }
    destruct (G _ _ Hp _ HR) as (m2 & P2 & R2). exists m2. split; [exact P2|]. apply (al_job _ _ _ AL _ _ R2), Hj.
  - assert (G : forall x y, clos_refl_trans nid (inval_by (c_dag c2)) x y -> forall x1, R x1 x ->
       exists y1, clos_refl_trans nid (inval_by (c_dag c1)) x1 y1 /\ R y1 y).
    { induction 1 as [x y H|x|x y z _ IH1 _ IH2]; intros x1 Hx.
      - destruct (al_inv' _ _ _ AL _ _ _ Hx H) as (y1 & H1 & HR1). exists y1. split; [apply rt_step; exact H1|exact HR1].
      - exists x1. split; [apply rt_refl|exact Hx].
      - destruct (IH1 _ Hx) as (y1 & P1 & R1). destruct (IH2 _ R1) as (z1 & P2 & R2).
        exists z1. split; [eapply rt_trans; eassumption|exact R2]. }
    destruct (G _ _ Hp _ HR) as (m1 & P1 & R1). exists m1. split; [exact P1|]. apply (al_job _ _ _ AL _ _ R1), Hj.
Qed.

Lemma alike_outcome : forall z1 s1 z2 s2,
  wf_dag (c_dag c1) -> requires_after (c_dag c1) -> wf_dag (c_dag c2) -> requires_after (c_dag c2) ->
  reachable c1 z1 s1 -> reachable c2 z2 s2 ->
  (forall n1 n2 o1 o2, R n1 n2 -> In (EEnd n1 o1) (trace s1) -> In (EEnd n2 o2) (trace s2) -> o1 = o2) ->
  forall r1 r2, In r1 (records (trace s1)) -> In r2 (records (trace s2)) -> R (r_node r1) (r_node r2) ->
  r_status r1 = r_status r2 /\ r_retcode r1 = r_retcode r2 /\ r_output r1 = r_output r2.
Proof.
  intros z1 s1 z2 s2 Hwf Hra Hwf2 Hra2 HR1 HR2 Ho.
  pose proof (r_log c1 z1 s1 Hwf HR1) as L1. pose proof (r_log c2 z2 s2 Hwf2 HR2) as L2.
  assert (G : forall k r1, (exists a er x l, s_log s1 = a ++ EAfterRun er r1 x :: l /\ List.length l < k) ->
     forall r2, In r2 (records (trace s2)) -> R (r_node r1) (r_node r2) ->
     r_status r1 = r_status r2 /\ r_retcode r1 = r_retcode r2 /\ r_output r1 = r_output r2).
  { induction k as [|k IH]; intros r1 [a [er [x [l [El Hl]]]]] r2 Hr2 En; [lia|].
    assert (Hr1 : In r1 (records (trace s1))).
    { rewrite <- recs_trace. apply recs_In. exists er, x. rewrite El. apply in_app_iff. right; left; reflexivity. }
    pose proof L1 as L1'. rewrite El in L1'. apply log_ok_app in L1'. destruct L1' as [[He _] Ll].
    cbn [ev_cond] in He. destruct He as [_ [_ [_ [_ [Har _]]]]].
    assert (Hpos : forall b rb, requires (c_dag c1) (r_node r1) b -> In rb (records (trace s1)) -> r_node rb = b ->
              exists a er x l, s_log s1 = a ++ EAfterRun er rb x :: l /\ List.length l < k).
    { intros b rb Hb Hrb Eb. destruct (Har b (Hra _ _ Hb)) as [rb' [H1 H2]].
      assert (rb' = rb).
      { eapply (rec_unique c1); [exact L1| |rewrite recs_trace; exact Hrb|congruence].
        rewrite El. apply recs_In in H1. destruct H1 as [er' [x' H1]]. apply recs_In. exists er', x'.
        apply in_app_iff. right; right; exact H1. }
      subst rb'. destruct (rec_at c1 _ _ Ll H1) as [p1 [er' [x' [p2 [E' _]]]]].
      exists (a ++ EAfterRun er r1 x :: p1), er', x', p2. rewrite El, E', <- app_assoc. split; [reflexivity|].
      rewrite E', app_length in Hl. cbn [List.length] in Hl. lia. }
    assert (HB : bad_requirement c1 (trace s1) (r_node r1) <-> bad_requirement c2 (trace s2) (r_node r2)).
    { split.
      - intros [b [rb [H1 [H2 [H3 H4]]]]].
        pose proof (record_facts c2 z2 s2 Hwf2 HR2 r2 Hr2) as [_ [F _]]. cbn zeta in F.
        destruct (al_req _ _ _ AL _ _ _ En H1) as (b2 & Q2 & Rb).
        destruct (F b2 (Hra2 _ _ Q2)) as [rb2 [G1 G2]].
        exists b2, rb2. split; [exact Q2|]. split; [exact G1|]. split; [exact G2|].
        destruct (IH rb (Hpos b rb H1 H2 H3) rb2 G1) as [Es _]; [rewrite H3, G2; exact Rb|]. rewrite <- Es. exact H4.
      - intros [b [rb [H1 [H2 [H3 H4]]]]].
        destruct (al_req' _ _ _ AL _ _ _ En H1) as (b1 & Q1 & Rb).
        pose proof (record_facts c1 z1 s1 Hwf HR1 r1 Hr1) as [_ [F _]]. cbn zeta in F.
        destruct (F b1 (Hra _ _ Q1)) as [rb1 [G1 G2]].
        exists b1, rb1. split; [exact Q1|]. split; [exact G1|]. split; [exact G2|].
        destruct (IH rb1 (Hpos b1 rb1 Q1 G1 G2) rb H2) as [Es _]; [rewrite H3, G2; exact Rb|]. rewrite Es. exact H4. }
    destruct (status_rule c1 z1 s1 r1 Hwf Hra HR1 Hr1) as [A1 [A2 [A3 A4]]].
    destruct (status_rule c2 z2 s2 r2 Hwf2 Hra2 HR2 Hr2) as [B1 [B2 [B3 B4]]].
    cbn zeta in *. rewrite <- HB in B1, B2. rewrite <- (alike_invalidated _ _ En) in B2.
    assert (Hran : forall (P : Prop), (r_status r1 = OK \/ r_status r1 = FAIL) -> (r_status r2 = OK \/ r_status r2 = FAIL) ->
       r_status r1 = r_status r2 /\ r_retcode r1 = r_retcode r2 /\ r_output r1 = r_output r2).
    { intros _ H1 H2. destruct (A3 H1) as [o1 [X1 [X2 [X3 X4]]]]. destruct (B3 H2) as [o2 [Y1 [Y2 [Y3 Y4]]]].
      rewrite (Ho _ _ _ _ En X1 Y1) in X2, X3.
      assert (Er : r_retcode r1 = r_retcode r2) by congruence. split; [|split; [exact Er|congruence]].
      rewrite Er in X4. destruct H1 as [H1|H1], H2 as [H2|H2]; rewrite H1, H2 in *; try reflexivity.
      - assert (C : OK = FAIL) by (apply X4, Y4; reflexivity). discriminate.
      - assert (C : OK = FAIL) by (apply Y4, X4; reflexivity). discriminate. }
    assert (Hzero : r_status r1 = r_status r2 -> (r_status r1 = DEPF \/ r_status r1 = SKIP) ->
       r_status r1 = r_status r2 /\ r_retcode r1 = r_retcode r2 /\ r_output r1 = r_output r2).
    { intros Es H. destruct (A4 H) as [X1 X2]. rewrite Es in H. destruct (B4 H) as [Y1 Y2]. rewrite X1, X2, Y1, Y2. auto. }
    destruct (r_status r1) eqn:S1, (r_status r2) eqn:S2; try (apply Hzero; [reflexivity|auto]; fail);
      try (apply (Hran True); auto; fail); exfalso.
    all: try (assert (OK = DEPF) by tauto; discriminate).
    all: try (assert (FAIL = DEPF) by tauto; discriminate).
    all: try (assert (SKIP = DEPF) by tauto; discriminate).
    all: try (assert (OK = SKIP) by tauto; discriminate).
    all: try (assert (FAIL = SKIP) by tauto; discriminate).
    all: tauto. }
  intros r1 r2 Hr1 Hr2 En. pose proof Hr1 as Hr1'. rewrite <- recs_trace in Hr1'.
  destruct (rec_at c1 _ _ L1 Hr1') as [a [er [x [l [El [He _]]]]]].
  apply (G (S (List.length l)) r1); [|exact Hr2|exact En]. exists a, er, x, l. auto.
Qed.
End Two.

Lemma set_alike : forall st ts1 filt1 iv1 addr1 c1 ts2 filt2 iv2 addr2 c2 t,
  execution_of st ts1 filt1 iv1 addr1 c1 -> execution_of st ts2 filt2 iv2 addr2 c2 ->
  (forall u, behind st t u -> (selected st ts1 filt1 u <-> selected st ts2 filt2 u) /\
     ((exists log, iv1 u = IvRet true log) <-> (exists log, iv2 u = IvRet true log))) ->
  alike c1 c2 (fun n1 n2 => exists u, behind st t u /\ selected st ts1 filt1 u /\ n1 = addr1 u /\ n2 = addr2 u).
Proof.
  intros st ts1 filt1 iv1 addr1 c1 ts2 filt2 iv2 addr2 c2 t X1 X2 H.
  destruct (exec_facts _ _ _ _ _ _ X1) as (_ & _ & _ & _ & _ & I1 & E1 & _ & V1).
  destruct (exec_facts _ _ _ _ _ _ X2) as (_ & _ & _ & _ & _ & I2 & E2 & _ & V2).
  assert (D : forall u v, behind st t u -> influenced_by st u v -> behind st t v).
  { intros u v Hu Hv. eapply rt_trans; [exact Hu|apply rt_step; exact Hv]. }
  assert (F : forall k u m1, behind st t u -> selected st ts1 filt1 u -> In (Edge (addr1 u) m1 k) (d_edges (c_dag c1)) ->
     k <> AFTER -> exists v, behind st t v /\ selected st ts1 filt1 v /\ m1 = addr1 v /\
     In (Edge (addr2 u) (addr2 v) k) (d_edges (c_dag c2))).
  { intros k u m1 Hu Su He Hk. apply E1 in He. destruct He as (x & y & Sx & Sy & Ex & -> & HE).
    apply (I1 _ _ Su Sx) in Ex. subst x.
    assert (Hv : behind st t y).
    { apply (D u y Hu). destruct HE as [HE|[[-> _]|[_ HE]]]; [left; exact HE|congruence|right; exact HE]. }
    exists y. split; [exact Hv|]. split; [exact Sy|]. split; [reflexivity|]. apply E2. exists u, y.
    split; [apply (H u Hu), Su|]. split; [apply (H y Hv), Sy|]. auto. }
  assert (F' : forall k u m2, behind st t u -> selected st ts1 filt1 u -> In (Edge (addr2 u) m2 k) (d_edges (c_dag c2)) ->
     k <> AFTER -> exists v, behind st t v /\ selected st ts1 filt1 v /\ m2 = addr2 v /\
     In (Edge (addr1 u) (addr1 v) k) (d_edges (c_dag c1))).
  { intros k u m2 Hu Su He Hk. apply E2 in He. destruct He as (x & y & Sx & Sy & Ex & -> & HE).
    apply (I2 u x (proj1 (proj1 (H u Hu)) Su) Sx) in Ex. subst x.
    assert (Hv : behind st t y).
    { apply (D u y Hu). destruct HE as [HE|[[-> _]|[_ HE]]]; [left; exact HE|congruence|right; exact HE]. }
    pose proof (proj2 (proj1 (H y Hv)) Sy) as Sy1.
    exists y. split; [exact Hv|]. split; [exact Sy1|]. split; [reflexivity|]. apply E1. exists u, y. auto 8. }
  constructor.
  - intros n1 n2 m1 (u & Hu & Su & -> & ->) He. destruct (F REQUIRES u m1 Hu Su He) as (v & Hv & Sv & -> & He2); [discriminate|].
    exists (addr2 v). split; [exact He2|]. exists v. auto.
  - intros n1 n2 m2 (u & Hu & Su & -> & ->) He. destruct (F' REQUIRES u m2 Hu Su He) as (v & Hv & Sv & -> & He2); [discriminate|].
    exists (addr1 v). split; [exact He2|]. exists v. auto.
  - intros n1 n2 m1 (u & Hu & Su & -> & ->) He. destruct (F INVALIDATED_BY u m1 Hu Su He) as (v & Hv & Sv & -> & He2); [discriminate|].
    exists (addr2 v). split; [exact He2|]. exists v. auto.
  - intros n1 n2 m2 (u & Hu & Su & -> & ->) He. destruct (F' INVALIDATED_BY u m2 Hu Su He) as (v & Hv & Sv & -> & He2); [discriminate|].
    exists (addr1 v). split; [exact He2|]. exists v. auto.
  - intros n1 n2 (u & Hu & Su & -> & ->). unfold job_invalidated.
    rewrite (V1 u Su), (V2 u (proj1 (proj1 (H u Hu)) Su)). apply H, Hu.
Qed.

Lemma record_task c z s r : wf_dag (c_dag c) -> reachable c z s -> In r (records (trace s)) ->
  In (r_node r) (node_ids (c_dag c)) /\ r_task r = node_task (c_dag c) (r_node r) /\
  r_name r = node_name (c_dag c) (r_node r).
Proof.
  intros Hwf HR Hr. split; [apply (record_facts c z s Hwf HR r Hr)|].
  pose proof Hr as Hr'. rewrite <- recs_trace in Hr'.
  destruct (rec_at c _ _ (r_log c z s Hwf HR) Hr') as [a [er [x [l [El [He _]]]]]].
  cbn [ev_cond] in He. destruct He as [_ [_ [_ [_ [_ [[T [N _]] _]]]]]]. auto.
Qed.

Lemma set_node st ts filt iv addr c z s r : execution_of st ts filt iv addr c -> reachable c z s ->
  In r (records (trace s)) ->
  selected st ts filt (r_task r) /\ r_node r = addr (r_task r) /\
  (forall p, holds ts p (r_task r) -> r_name r = full_name p).
Proof.
  intros X HR Hr. destruct (exec_facts _ _ _ _ _ _ X) as (W & _ & _ & N & A & _).
  destruct (record_task c z s r W HR Hr) as (Hi & Ht & Hn). destruct (A _ Hi) as (t & St & En).
  destruct (N t St) as (_ & Nt & Np). rewrite En in Ht, Hn. rewrite Nt in Ht. rewrite Ht.
  split; [exact St|]. split; [exact En|]. intros p Hp. rewrite Hn. exact (Np p Hp).
Qed.

Lemma set_local : forall st ts1 filt1 iv1 addr1 c1 ts2 filt2 iv2 addr2 c2 z1 s1 z2 s2 t,
  execution_of st ts1 filt1 iv1 addr1 c1 -> execution_of st ts2 filt2 iv2 addr2 c2 ->
  (forall u, behind st t u -> (selected st ts1 filt1 u <-> selected st ts2 filt2 u) /\
     ((exists log, iv1 u = IvRet true log) <-> (exists log, iv2 u = IvRet true log))) ->
  reachable c1 z1 s1 -> reachable c2 z2 s2 ->
  (forall u o1 o2, behind st t u -> In (EEnd (addr1 u) o1) (trace s1) -> In (EEnd (addr2 u) o2) (trace s2) -> o1 = o2) ->
  forall r1 r2, In r1 (records (trace s1)) -> In r2 (records (trace s2)) -> r_task r1 = t -> r_task r2 = t ->
  r_status r1 = r_status r2 /\ r_retcode r1 = r_retcode r2 /\ r_output r1 = r_output r2.
Proof.
  intros st ts1 filt1 iv1 addr1 c1 ts2 filt2 iv2 addr2 c2 z1 s1 z2 s2 t X1 X2 H HR1 HR2 Ho r1 r2 Hr1 Hr2 T1 T2.
  destruct (exec_facts _ _ _ _ _ _ X1) as (W1 & A1 & _). destruct (exec_facts _ _ _ _ _ _ X2) as (W2 & A2 & _).
  destruct (set_node _ _ _ _ _ _ _ _ _ X1 HR1 Hr1) as (S1 & N1 & _).
  destruct (set_node _ _ _ _ _ _ _ _ _ X2 HR2 Hr2) as (S2 & N2 & _).
  eapply (alike_outcome c1 c2 _ (set_alike _ _ _ _ _ _ _ _ _ _ _ t X1 X2 H)); eauto.
  - intros n1 n2 o1 o2 (u & Hu & _ & -> & ->). apply Ho. exact Hu.
  - exists t. split; [apply rt_refl|]. rewrite T1 in S1, N1. rewrite T2 in N2. auto.
Qed.

(** One set, two filters. *)
Lemma filter_local : forall st ts filt1 filt2 iv addr1 addr2 c1 c2 z1 s1 z2 s2,
  execution_of st ts filt1 iv addr1 c1 -> execution_of st ts filt2 iv addr2 c2 ->
  (forall a b, selected st ts filt1 a \/ selected st ts filt2 a -> In b (t_invalidated_by (st_get st a)) ->
     clos_trans tid (depends_on st) a b) ->
  reachable c1 z1 s1 -> reachable c2 z2 s2 ->
  (forall u o1 o2, In (EEnd (addr1 u) o1) (trace s1) -> In (EEnd (addr2 u) o2) (trace s2) -> o1 = o2) ->
  forall r1 r2, In r1 (records (trace s1)) -> In r2 (records (trace s2)) -> r_task r1 = r_task r2 ->
  r_status r1 = r_status r2 /\ r_retcode r1 = r_retcode r2 /\ r_output r1 = r_output r2 /\
  ((exists p, holds ts p (r_task r1)) -> r_name r1 = r_name r2).
Proof.
  intros st ts filt1 filt2 iv addr1 addr2 c1 c2 z1 s1 z2 s2 X1 X2 HD HR1 HR2 Ho r1 r2 Hr1 Hr2 ET.
  destruct (set_node _ _ _ _ _ _ _ _ _ X1 HR1 Hr1) as (S1 & N1 & M1).
  destruct (set_node _ _ _ _ _ _ _ _ _ X2 HR2 Hr2) as (S2 & N2 & M2).
  assert (up : forall filt a b, selected st ts filt a -> clos_refl_trans tid (depends_on st) a b -> selected st ts filt b).
  { intros filt a b (p & r & H1 & H2 & H3) H. exists p, r. split; [exact H1|]. split; [exact H2|]. eapply rt_trans; eassumption. }
  assert (B : forall u, behind st (r_task r1) u -> selected st ts filt1 u /\ selected st ts filt2 u).
  { intros u Hu. apply clos_rt_rtn1 in Hu. induction Hu as [|v u [Hd|Hi] _ [IH1 IH2]].
    - split; [exact S1|rewrite ET; exact S2].
    - split; eapply up; eauto; apply rt_step; exact Hd.
    - assert (P : clos_refl_trans tid (depends_on st) v u).
      { assert (P : clos_trans tid (depends_on st) v u) by (apply (HD v u); auto). clear - P.
        induction P; [apply rt_step; assumption|eapply rt_trans; eassumption]. }
      split; eapply up; eauto. }
  destruct (set_local st ts filt1 iv addr1 c1 ts filt2 iv addr2 c2 z1 s1 z2 s2 (r_task r1) X1 X2) with (r1 := r1) (r2 := r2)
    as (Q1 & Q2 & Q3); auto.
  - intros u Hu. destruct (B u Hu). tauto.
  - intros u o1 o2 _. apply Ho.
  - split; [exact Q1|]. split; [exact Q2|]. split; [exact Q3|]. intros [p Hp].
    rewrite (M1 p Hp). rewrite ET in Hp. symmetry. exact (M2 p Hp).
Qed.
