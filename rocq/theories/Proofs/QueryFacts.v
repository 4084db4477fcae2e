(** Checks of processes when file queries fail. *)
From Coq Require Import String Lia Relations.
From Verif Require Import Model.Common Model.Records Model.Jobs Model.TaskSet Model.Dag Model.Sched Model.Exec
     Model.Text Model.Process Model.JobTypes Model.FileQueries Spec.Graph Spec.Trace Spec.Tasks Spec.Files
     Proofs.TaskFacts Proofs.ExecProps2 Proofs.SetExec Proofs.ProcessFacts.
Open Scope nat_scope.
Open Scope list_scope.

Lemma qbind_some {A B} (x : option A) (k : A -> option B) b :
  qbind x k = Some b -> exists a, x = Some a /\ k a = Some b.
Proof. destruct x; cbn; [eauto|discriminate]. Qed.
Lemma qbind_none {A B} (x : option A) (k : A -> option B) :
  qbind x k = None -> x = None \/ exists a, x = Some a /\ k a = None.
Proof. destruct x; cbn; eauto. Qed.

Section Agree.
Context (q : queries) (f : fs) (T : true_of q f).

Lemma exists_agree p b : q_exists q p = Some b -> b = fs_exists f p.
Proof.
  intros H. destruct (T p) as (T1 & _). specialize (T1 b H). unfold fs_exists.
  destruct (f p), b; try reflexivity.
  - exfalso. assert (X : false = true) by (apply T1; discriminate). discriminate.
  - exfalso. apply T1; reflexivity.
Qed.
Lemma time_agree p t : q_write_time q p = Some t -> t = path_to_write_time f p.
Proof.
  intros H. unfold q_write_time in H. apply qbind_some in H. destruct H as (b & Eb & H).
  apply exists_agree in Eb. unfold fs_exists in Eb. unfold path_to_write_time. destruct (T p) as (_ & T2 & _).
  destruct (f p) as [x|] eqn:Ex; subst b; [exact (T2 t x H eq_refl)|congruence].
Qed.
Lemma min_agree : forall l x m, q_min_element (q_write_time q) x l = Some m ->
  m = min_element (path_to_write_time f) x l.
Proof.
  induction l as [|y r IH]; intros x m H; cbn in *; [congruence|].
  apply qbind_some in H. destruct H as (a & Ea & H). apply qbind_some in H. destruct H as (b & Eb & H).
  apply time_agree in Ea, Eb. subst a b. destruct (_ <? _)%Z; apply IH; exact H.
Qed.
Lemma max_agree : forall l x m, q_max_element (q_write_time q) x l = Some m ->
  m = max_element (path_to_write_time f) x l.
Proof.
  induction l as [|y r IH]; intros x m H; cbn in *; [congruence|].
  apply qbind_some in H. destruct H as (a & Ea & H). apply qbind_some in H. destruct H as (b & Eb & H).
  apply time_agree in Ea, Eb. subst a b. destruct (_ <? _)%Z; apply IH; exact H.
Qed.
Lemma all_agree : forall l b, q_all_exist q l = Some b -> b = forallb (fs_exists f) l.
Proof.
  induction l as [|p r IH]; intros b H; cbn in *; [congruence|].
  apply qbind_some in H. destruct H as (a & Ea & H). apply exists_agree in Ea. rewrite <- Ea.
  destruct a; cbn; [apply IH; exact H|congruence].
Qed.

Lemma check_agrees fmt p r : q_is_invalidated fmt q p = Some r -> r = is_invalidated fmt f p.
Proof.
  unfold q_is_invalidated, is_invalidated.
  match goal with |- context [match p_retcode p with None => ?a | Some rf => _ end = Some r -> r = match p_retcode p with None => ?b | Some _ => _ end] =>
    assert (Ht : a = Some r -> r = b) end.
  { destruct (p_output p) as [|o os]; [congruence|]. destruct (p_input p) as [|i is].
    - intros H. apply qbind_some in H. destruct H as (b & Eb & H). apply all_agree in Eb. congruence.
    - intros H. apply qbind_some in H. destruct H as (old & Eo & H).
      apply min_agree in Eo. rewrite <- Eo. apply qbind_some in H. destruct H as (b & Eb & H).
      apply exists_agree in Eb. rewrite <- Eb. destruct b; cbn [negb] in *; [|congruence].
      apply qbind_some in H. destruct H as (new & En & H). apply max_agree in En. rewrite <- En.
      apply qbind_some in H. destruct H as (ot & E1 & H). apply qbind_some in H. destruct H as (it & E2 & H).
      apply time_agree in E1, E2. cbn zeta. congruence. }
  destruct (p_retcode p) as [rf|]; [|exact Ht].
  intros H. apply qbind_some in H. destruct H as (b & Eb & H). apply exists_agree in Eb. unfold fs_exists in Eb.
  destruct (T rf) as (_ & _ & T3). destruct (f rf) as [x|]; subst b; cbn [negb] in H; [|congruence].
  cbn zeta. rewrite <- (T3 x eq_refl). destruct (q_retcode q rf =? 0)%Z; [exact (Ht H)|congruence].
Qed.
End Agree.

Section Throws.
Context (q : queries).
Lemma time_fails p : q_write_time q p = None -> query_fails q p.
Proof.
  intros H. apply qbind_none in H. destruct H as [H|(b & Eb & H)]; [left; exact H|].
  destruct b; [right; auto|discriminate].
Qed.
Lemma min_fails : forall l x, q_min_element (q_write_time q) x l = None ->
  exists p, In p (x :: l) /\ query_fails q p.
Proof.
  induction l as [|y r IH]; intros x H; cbn in H; [discriminate|].
  apply qbind_none in H. destruct H as [H|(a & _ & H)].
  { exists y. split; [cbn; auto|apply time_fails; exact H]. }
  apply qbind_none in H. destruct H as [H|(b & _ & H)].
  { exists x. split; [cbn; auto|apply time_fails; exact H]. }
  destruct (_ <? _)%Z; apply IH in H; destruct H as (p & Hp & H); exists p; (split; [|exact H]); cbn in *; intuition.
Qed.
Lemma max_fails : forall l x, q_max_element (q_write_time q) x l = None ->
  exists p, In p (x :: l) /\ query_fails q p.
Proof.
  induction l as [|y r IH]; intros x H; cbn in H; [discriminate|].
  apply qbind_none in H. destruct H as [H|(a & _ & H)].
  { exists x. split; [cbn; auto|apply time_fails; exact H]. }
  apply qbind_none in H. destruct H as [H|(b & _ & H)].
  { exists y. split; [cbn; auto|apply time_fails; exact H]. }
  destruct (_ <? _)%Z; apply IH in H; destruct H as (p & Hp & H); exists p; (split; [|exact H]); cbn in *; intuition.
Qed.
Lemma all_fails : forall l, q_all_exist q l = None -> exists p, In p l /\ query_fails q p.
Proof.
  induction l as [|x r IH]; intros H; cbn in H; [discriminate|].
  apply qbind_none in H. destruct H as [H|(a & _ & H)].
  { exists x. split; [cbn; auto|left; exact H]. }
  destruct a; [|discriminate]. destruct (IH H) as (p & Hp & X). exists p. split; [cbn; auto|exact X].
Qed.
Lemma min_In : forall l x m, q_min_element (q_write_time q) x l = Some m -> In m (x :: l).
Proof.
  induction l as [|y r IH]; intros x m H; cbn in H; [injection H as <-; cbn; auto|].
  apply qbind_some in H. destruct H as (a & _ & H). apply qbind_some in H. destruct H as (b & _ & H).
  destruct (_ <? _)%Z; apply IH in H; cbn in *; intuition.
Qed.
Lemma max_In : forall l x m, q_max_element (q_write_time q) x l = Some m -> In m (x :: l).
Proof.
  induction l as [|y r IH]; intros x m H; cbn in H; [injection H as <-; cbn; auto|].
  apply qbind_some in H. destruct H as (a & _ & H). apply qbind_some in H. destruct H as (b & _ & H).
  destruct (_ <? _)%Z; apply IH in H; cbn in *; intuition.
Qed.

Lemma check_throws fmt p : q_is_invalidated fmt q p = None -> exists x, In x (looks_at p) /\ query_fails q x.
Proof.
  unfold q_is_invalidated, looks_at. intros H.
  match type of H with (match p_retcode p with None => ?a | Some rf => _ end = None) =>
    assert (Ht : a = None -> exists x, In x (p_output p ++ p_input p) /\ query_fails q x) end.
  { clear H. destruct (p_output p) as [|o os]; [discriminate|]. destruct (p_input p) as [|i is].
    - intros H. apply qbind_none in H. destruct H as [H|(b & _ & H)]; [|discriminate].
      apply all_fails in H. destruct H as (x & Hx & H). exists x. split; [|exact H]. apply in_or_app. auto.
    - intros H. apply qbind_none in H. destruct H as [H|(old & Eo & H)].
      { apply min_fails in H. destruct H as (x & Hx & H). exists x. split; [|exact H]. apply in_or_app. auto. }
      apply min_In in Eo. apply qbind_none in H. destruct H as [H|(b & Eb & H)].
      { exists old. split; [apply in_or_app; auto|left; exact H]. }
      destruct b; cbn [negb] in H; [|discriminate].
      apply qbind_none in H. destruct H as [H|(new & En & H)].
      { apply max_fails in H. destruct H as (x & Hx & H). exists x. split; [|exact H]. apply in_or_app. auto. }
      apply max_In in En. apply qbind_none in H. destruct H as [H|(ot & E1 & H)].
      { exists old. split; [apply in_or_app; auto|apply time_fails; exact H]. }
      apply qbind_none in H. destruct H as [H|(it & E2 & H)]; [|discriminate].
      exists new. split; [apply in_or_app; auto|apply time_fails; exact H]. }
  rewrite app_assoc. destruct (p_retcode p) as [rf|].
  - apply qbind_none in H. destruct H as [H|(b & Eb & H)].
    { exists rf. split; [apply in_or_app; right; cbn; auto|left; exact H]. }
    destruct b; cbn [negb] in H; [|discriminate]. destruct (q_retcode q rf =? 0)%Z; [|discriminate].
    destruct (Ht H) as (x & Hx & X). exists x. split; [apply in_or_app; auto|exact X].
  - destruct (Ht H) as (x & Hx & X). exists x. split; [apply in_or_app; auto|exact X].
Qed.
End Throws.

Lemma check_answers fmt q p : (forall x, In x (looks_at p) -> ~ query_fails q x) ->
  exists r, q_is_invalidated fmt q p = Some r /\ forall f, true_of q f -> r = is_invalidated fmt f p.
Proof.
  intros H. destruct (q_is_invalidated fmt q p) as [r|] eqn:E.
  - exists r. split; [reflexivity|]. intros f T. exact (check_agrees q f T fmt p r E).
  - apply check_throws in E. destruct E as (x & Hx & X). destruct (H x Hx X).
Qed.

Theorem failing_query_aborts fmt q jb st ts filt addr c t p :
  execution_of st ts filt (job_checks_q fmt q jb) addr c ->
  selected st ts filt t -> jb t = JobProcess p -> q_is_invalidated fmt q p = None ->
  (forall z s e, reachable c z s -> In e (trace s) -> ~ job_activity e) /\
  (forall z s0 s, ~ (exists u, clos_trans tid (selected_after st ts filt) u u) ->
     (forall u, selected st ts filt u -> t_has_job (st_get st u) = true) ->
     reachable c z s0 -> s_pc s0 = Created -> step c s0 LTick = Some s ->
     exists u pu x, result s = RThrow (ExcInval (addr u)) /\ selected st ts filt u /\
       jb u = JobProcess pu /\ In x (looks_at pu) /\ query_fails q x).
Proof.
  intros Hx Ht Ej En. destruct (exec_facts st ts filt _ addr c Hx) as (Hwf & _ & _ & Hn & Hns & _ & _ & Hct & Hiv).
  assert (Hthrow : c_inval c (addr t) = IvThrow).
  { rewrite (Hiv t Ht). unfold job_checks_q, q_job_is_invalidated. rewrite Ej, En. reflexivity. }
  split.
  - intros z s e HR He. exact (inval_throw_no_job c z s (addr t) Hwf HR (proj1 (Hn t Ht)) Hthrow e He).
  - intros z s0 s Hac Hj HR Hpc Hs.
    assert (Hac' : acyclic (c_dag c)).
    { intros Hc. apply Hac. apply (set_cycle_iff st ts filt _ addr c Hx). exact Hc. }
    assert (Hj' : forall n, In n (node_ids (c_dag c)) -> node_has_job c n = true).
    { intros n Hin. destruct (Hns n Hin) as (u & Hu & ->). unfold node_has_job.
      rewrite (proj1 (proj2 (Hn u Hu))), Hct. exact (Hj u Hu). }
    destruct (inval_throw_result c z s0 s Hwf Hac' Hj' HR Hpc Hs) as (Hiff & Honly).
    destruct (proj2 Hiff) as (n & Er). { exists (addr t). split; [apply Hn; exact Ht|exact Hthrow]. }
    destruct (Honly n Er) as (Hin & Hth). destruct (Hns n Hin) as (u & Hu & ->).
    rewrite (Hiv u Hu) in Hth. unfold job_checks_q, q_job_is_invalidated in Hth.
    destruct (jb u) as [|pu] eqn:Eu; [discriminate|].
    destruct (q_is_invalidated fmt q pu) eqn:Eq; [discriminate|].
    destruct (check_throws q fmt pu Eq) as (x & Hlx & Hf).
    exists u, pu, x. auto.
Qed.
