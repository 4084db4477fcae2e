(** When format_dag lists exactly what a node runs after (C43). *)
From Coq Require Import String Ascii Lia.
From Verif Require Import Model.Common Model.Records Model.Jobs Model.TaskSet Model.Dag Model.Sched Model.Exec
     Model.ExecSet Model.Text Model.Format Model.Report Model.Visitor
     Spec.Graph Spec.Trace Spec.Tasks Spec.Report Spec.Listing Proofs.TaskFacts Proofs.BuildProps Proofs.SetExec Proofs.ReportFacts.
Open Scope nat_scope.
Open Scope list_scope.

Lemma filter_and {A} (p q : A -> bool) l :
  List.length (filter p l) = List.length (filter (fun x => p x && q x) l) <-> forall x, In x l -> p x = true -> q x = true.
Proof.
  assert (Le : forall l, List.length (filter (fun x => p x && q x) l) <= List.length (filter p l)).
  { clear. induction l as [|x l IH]; cbn; [lia|]. destruct (p x), (q x); cbn; lia. }
  induction l as [|x l IH]; cbn [filter]; [split; [intros _ x []|reflexivity]|]. specialize (Le l).
  destruct (p x) eqn:P, (q x) eqn:Q; cbn [andb List.length].
  - rewrite Nat.succ_inj_wd, IH. split; [intros H y [<-|Hy]; auto|intros H y Hy; apply H; right; exact Hy].
  - split; [intros H; lia|]. intros H. specialize (H x (or_introl eq_refl) P). congruence.
  - rewrite IH. split; [intros H y [<-|Hy]; [congruence|auto]|intros H y Hy; apply H; right; exact Hy].
  - rewrite IH. split; [intros H y [<-|Hy]; [congruence|auto]|intros H y Hy; apply H; right; exact Hy].
Qed.

Lemma filter_same {A} (p q : A -> bool) l :
  (forall x, In x l -> p x = true -> q x = true) -> filter p l = filter (fun x => p x && q x) l.
Proof.
  intros H. apply filter_ext_in. intros x Hx. specialize (H x Hx). destruct (p x); [cbn; symmetry; auto|reflexivity].
Qed.

Lemma listing_exact d : exists names, format_dag d = after_listing names d /\
  forall x, names x = after_names d (n_id x) <-> forall b k, In (Edge (n_id x) b k) (d_edges d) -> k = AFTER.
Proof.
  eexists. split; [apply format_dag_listing|]. intros x. cbn beta. unfold after_names, out_edges.
  assert (G : (forall e, In e (d_edges d) -> (e_src e =? n_id x) = true -> ekind_eqb (e_kind e) AFTER = true) <->
              forall b k, In (Edge (n_id x) b k) (d_edges d) -> k = AFTER).
  { split.
    - intros H b k Hb. specialize (H _ Hb (Nat.eqb_refl _)). cbn in H. destruct k; [reflexivity|discriminate H|discriminate H].
    - intros H [a b k] He E. cbn in E. apply Nat.eqb_eq in E. subst a. rewrite (H b k He). reflexivity. }
  rewrite <- G. split.
  - intros E. apply filter_and. apply (f_equal (@List.length _)) in E. rewrite !map_length in E. exact E.
  - intros H. now rewrite (filter_same _ _ _ H).
Qed.

(** The graph of a task set: exactly the tasks without dependencies and without selected
    tasks in invalidated_by have a correct line. *)
Lemma listing_sets st ts filt iv addr c : execution_of st ts filt iv addr c ->
  exists names, format_dag (c_dag c) = after_listing names (c_dag c) /\
  forall x, In x (d_nodes (c_dag c)) ->
    (names x = after_names (c_dag c) (n_id x) <->
     t_depends_on (st_get st (n_task x)) = [] /\
     forall u, In u (t_invalidated_by (st_get st (n_task x))) -> ~ selected st ts filt u).
Proof.
  intros X. destruct (exec_facts _ _ _ _ _ _ X) as (W & _ & _ & T & N & Hinj & He & _).
  destruct (listing_exact (c_dag c)) as (names & E & H). exists names. split; [exact E|]. intros x Hx. rewrite H. clear H.
  assert (Hid : In (n_id x) (node_ids (c_dag c))) by (apply in_map; exact Hx).
  destruct (N _ Hid) as (t & St & Ex). destruct (T t St) as (_ & Et & _).
  assert (En : n_task x = t).
  { rewrite <- Et, <- Ex. unfold node_task. rewrite (lookup_node_In _ x (proj1 W) Hx). reflexivity. }
  rewrite En, Ex. split.
  - intros H. split.
    + destruct (t_depends_on (st_get st t)) as [|u l] eqn:D; [reflexivity|]. exfalso.
      assert (Du : depends_on st t u) by (unfold depends_on; rewrite D; left; reflexivity).
      assert (C : REQUIRES = AFTER); [|discriminate C]. apply (H (addr u)). apply He. exists t, u.
      split; [exact St|]. split; [eapply sel_dep; eassumption|]. auto.
    + intros u Hu Su. assert (C : INVALIDATED_BY = AFTER); [|discriminate C]. apply (H (addr u)). apply He. exists t, u. auto 10.
  - intros [D I] b k Hb. apply He in Hb. destruct Hb as (a & u & Sa & Su & Ea & Eb & Hk).
    assert (a = t) by (apply Hinj; congruence). subst a.
    destruct Hk as [Hk|[[Hk _]|[_ Hk]]]; [unfold depends_on in Hk; rewrite D in Hk; destruct Hk|exact Hk|destruct (I u Hk Su)].
Qed.
