(** Why tasks are blocked, and the order of tasks that are only transitively related. *)
From Coq Require Import Lia String Relations.
From Verif Require Import Model.Common Model.Records Model.Jobs Model.TaskSet Model.Dag
     Model.Sched Model.Exec Spec.Graph Spec.Trace
     Proofs.Sets Proofs.TraceFacts Proofs.ExecInv Proofs.LogFacts Proofs.ExecProps Proofs.ExecProps2 Proofs.ExecProps4.
Open Scope nat_scope.
Open Scope list_scope.

Lemma blamed c k : forall log r, log_ok c log -> List.length log <= k -> In r (recs log) -> r_status r = DEPF ->
  exists b rb, clos_trans nid (requires (c_dag c)) (r_node r) b /\ In rb (recs log) /\ r_node rb = b /\
               r_status rb = FAIL.
Proof.
  induction k as [|k IH]; intros log r L Hk Hr Es.
  - destruct log; [destruct Hr|cbn in Hk; lia].
  - destruct (rec_at c log r L Hr) as (l1 & er & x & l2 & -> & He & L2).
    cbn [ev_cond] in He. destruct He as (_ & _ & _ & _ & _ & (_ & _ & Hrec) & _). rewrite Es in Hrec.
    destruct Hrec as ((m & r' & Hreq & Hin & Hnode & Hbad) & _).
    assert (Hup : forall q, In q (recs l2) -> In q (recs (l1 ++ EAfterRun er r x :: l2))).
    { intros q Hq. apply recs_In in Hq. destruct Hq as (er' & x' & Hq). apply recs_In. exists er', x'.
      apply in_app_iff. right. right. exact Hq. }
    destruct (r_status r') eqn:Es'; try discriminate Hbad.
    + destruct (IH l2 r' L2) as (b & rb & H1 & H2 & H3 & H4); [|exact Hin|exact Es'|].
      { rewrite app_length in Hk. cbn in Hk. lia. }
      exists b, rb. split; [|auto]. eapply t_trans; [apply t_step|rewrite Hnode in H1; exact H1]. exact Hreq.
    + exists m, r'. split; [apply t_step; exact Hreq|]. auto.
Qed.

Lemma root_cause : forall c z s r,
  wf_dag (c_dag c) -> reachable c z s -> In r (records (trace s)) -> r_status r = DEPF ->
  exists b rb o, clos_trans nid (requires (c_dag c)) (r_node r) b /\
    In rb (records (trace s)) /\ r_node rb = b /\ r_status rb = FAIL /\
    In (EEnd b o) (trace s) /\ job_code o <> 0%Z.
Proof.
  intros c z s r Hwf HR Hr Es. pose proof (r_log c z s Hwf HR) as L.
  destruct (blamed c (List.length (s_log s)) (s_log s) r L (le_n _) Hr Es) as (b & rb & H1 & H2 & H3 & H4).
  destruct (rec_at c _ rb L H2) as (l1 & er & x & l2 & El & He & _).
  cbn [ev_cond] in He. destruct He as (_ & _ & _ & _ & _ & (_ & _ & Hrec) & _). rewrite H4 in Hrec.
  destruct Hrec as (_ & _ & _ & o & Ho & Hc & _ & _ & Hf).
  exists b, rb, o. split; [exact H1|]. split; [exact H2|]. split; [exact H3|]. split; [exact H4|]. split.
  - rewrite H3 in Ho. apply trace_in. rewrite El. apply in_app_iff. right. right. exact Ho.
  - pose proof (lambda_code o) as E. intros G. apply (proj1 Hf); congruence.
Qed.

Lemma nothing_failed : forall c z s er,
  wf_dag (c_dag c) -> reachable c z s -> result s = RRecord er ->
  (forall n o, In (EEnd n o) (trace s) -> job_code o = 0%Z) ->
  forall r, In r (er_runs er) -> r_status r = OK \/ r_status r = SKIP.
Proof.
  intros c z s er Hwf HR H Hok r Hr. rewrite (finished_runs c z s Hwf HR er H) in Hr.
  assert (Hf : forall r, In r (records (trace s)) -> r_status r <> FAIL).
  { intros q Hq Es. destruct (rec_at c _ q (r_log c z s Hwf HR) Hq) as (l1 & er' & x & l2 & El & He & _).
    cbn [ev_cond] in He. destruct He as (_ & _ & _ & _ & _ & (_ & _ & Hrec) & _). rewrite Es in Hrec.
    destruct Hrec as (_ & _ & _ & o & Ho & Hc & _ & _ & Hf).
    pose proof (lambda_code o) as E. apply (proj1 Hf); [reflexivity|].
    rewrite Hc, E. apply (Hok (r_node q)). apply trace_in. rewrite El. apply in_app_iff. right. right. exact Ho. }
  destruct (r_status r) eqn:Es; auto; exfalso.
  - destruct (root_cause c z s r Hwf HR Hr Es) as (b & rb & o & _ & Hb & _ & Eb & _). exact (Hf rb Hb Eb).
  - exact (Hf r Hr Es).
Qed.

(** A record comes after those of everything the task transitively runs after. *)
Lemma recorded_closed c log a b : log_ok c log ->
  clos_trans nid (runs_after (c_dag c)) a b -> recorded_l log a -> recorded_l log b.
Proof.
  intros L H. apply clos_trans_t1n in H. induction H as [a b H|a m b H _ IH]; intros (r & Hr & <-).
  all: destruct (rec_at c _ r L Hr) as (l1 & er & x & l2 & El & He & _);
    cbn [ev_cond] in He; destruct He as (_ & _ & _ & _ & Har & _); rewrite El in *;
    specialize (Har _ H); apply (recorded_app (l1 ++ [EAfterRun er r x])) in Har;
    rewrite <- app_assoc in Har; cbn in Har.
  - exact Har.
  - exact (IH Har).
Qed.

Lemma transitive_order : forall c z s a b pre post,
  wf_dag (c_dag c) -> reachable c z s -> clos_trans nid (runs_after (c_dag c)) a b ->
  trace s = pre ++ EBegin a :: post ->
  recorded pre b /\
  (In (EBegin b) pre -> exists o, In (EEnd b o) pre) /\
  ~ In (EBegin b) post.
Proof.
  intros c z s a b pre post Hwf HR Hab E.
  destruct (trace_at c z s Hwf HR _ _ _ E) as [[He _] Hl]. cbn [ev_cond] in He.
  assert (Hrec : recorded_l (rev pre) b).
  { pose proof (clos_trans_t1n _ _ _ _ Hab) as H. destruct H as [b H|m b H Hmb].
    - apply He, H.
    - apply (recorded_closed c (rev pre) m b Hl); [apply clos_t1n_trans, Hmb|apply He, H]. }
  split; [apply recorded_rev, Hrec|]. split.
  - intros Hb. apply in_rev in Hb.
    destruct (recorded_end c _ b Hl Hrec (begin_launch c _ _ Hl Hb)) as [o Ho].
    exists o. apply in_rev. exact Ho.
  - intros H. apply in_split in H. destruct H as [p1 [p2 ->]].
    assert (E' : trace s = (pre ++ EBegin a :: p1) ++ EBegin b :: p2) by (rewrite <- app_assoc; exact E).
    destruct (trace_at c z s Hwf HR _ _ _ E') as [[He' _] _]. cbn [ev_cond] in He'.
    apply He'. rewrite rev_app_distr. apply recorded_app, Hrec.
Qed.
