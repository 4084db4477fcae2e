(** The order of executions with at most one job at a time (C58). *)
From Coq Require Import Lia String Permutation.
From Verif Require Import Model.Common Model.Records Model.Jobs Model.TaskSet Model.Dag
     Model.Sched Model.Exec Spec.Graph Spec.Trace
     Proofs.Sets Proofs.SchedFacts Proofs.InvalFacts Proofs.TraceFacts Proofs.ExecInv
     Proofs.ExecStep Proofs.ExecCtl Proofs.LogFacts Proofs.ExecProps Proofs.ExecProps2
     Proofs.StepCases Proofs.ExecProps3 Proofs.Ticks Proofs.Determinism.
Open Scope nat_scope.
Open Scope list_scope.

Lemma after_list_targets d n : after_list d n = after_targets d n.
Proof.
  unfold after_list, after_targets, edge_targets, filter_edges, out_edges. f_equal.
  induction (d_edges d) as [|e l IH]; [reflexivity|]. cbn. destruct (e_src e =? n); cbn; [|exact IH].
  destruct (e_kind e); cbn; rewrite IH; reflexivity.
Qed.

Section Descend.
Variables (d : dag) (p : list nid).
Hypothesis Hac : acyclic d.

Lemma find_node_descends : forall fuel n seen r seen',
  find_node fuel d (done_state p) (fun _ => []) [] n seen = Some (r, seen') -> ~ In n p ->
  (forall x, clos_refl_trans nid (runs_after d) n x -> ~ In x seen) ->
  exists m, r = Some m /\ descends d p n m.
Proof.
  induction fuel as [|f IH]; intros n seen r seen' H Hp Hs; [discriminate|]. cbn [find_node] in H.
  assert (Ep : mem n p = false) by (destruct (mem n p) eqn:E; [apply mem_In in E; contradiction|reflexivity]).
  assert (Es : mem n seen = false).
  { destruct (mem n seen) eqn:E; [|reflexivity]. apply mem_In in E. destruct (Hs n (rt_refl _ _ _) E). }
  unfold done_state at 1 2 in H. cbn [ns_started ns_done] in H. rewrite Ep, Es in H. cbn [orb] in H.
  cbv zeta in H. rewrite no_res_used, orb_false_r in H.
  assert (Hs' : forall m x, In m (after_targets d n) -> clos_refl_trans nid (runs_after d) m x -> ~ In x (set_insert n seen)).
  { intros m x Hm Hx Hin. apply after_targets_In in Hm. apply set_insert_In in Hin. destruct Hin as [->|Hin].
    - apply Hac. exists n. apply clos_rt_rtn1 in Hx.
      assert (G : forall y, clos_refl_trans_n1 nid (runs_after d) m y -> clos_trans nid (runs_after d) n y).
      { induction 1 as [|y x Hyx _ IHy]; [apply t_step, Hm|]. apply t_trans with y; [exact IHy|apply t_step, Hyx]. }
      apply G, Hx.
    - apply (Hs x); [|exact Hin]. apply rt_trans with m; [apply rt_step, Hm|exact Hx]. }
  assert (G : forall es a sn, after_targets d n = a ++ es -> incl a p ->
     (forall m x, In m es -> clos_refl_trans nid (runs_after d) m x -> ~ In x sn) ->
     find_loop (find_node f d (done_state p) (fun _ => []) [])
       (if negb (all_done (done_state p) (after_targets d n)) then None else Some n) es sn = Some (r, seen') ->
     exists m, r = Some m /\ descends d p n m).
  { induction es as [|k es IHes]; intros a sn Ea Ha Hsn Hl; cbn [find_loop] in Hl.
    - rewrite app_nil_r in Ea. assert (Hd : all_done (done_state p) (after_targets d n) = true).
      { unfold all_done. apply forallb_forall. intros x Hx. rewrite Ea in Hx. cbn. apply mem_In, Ha, Hx. }
      rewrite Hd in Hl. cbn in Hl. inversion Hl. exists n. split; [reflexivity|].
      apply desc_here. rewrite after_list_targets, Ea. exact Ha.
    - destruct (mem k p) eqn:Ek.
      + assert (Hk : In k p) by (apply mem_In, Ek).
        destruct f as [|f']; [discriminate|].
        assert (Ef : find_node (S f') d (done_state p) (fun _ => []) [] k sn = Some (None, sn)).
        { cbn [find_node]. unfold done_state at 1 2. cbn. rewrite Ek. reflexivity. }
        rewrite Ef in Hl. apply (IHes (a ++ [k]) sn); [rewrite <- app_assoc; exact Ea| |intros m x Hm; apply Hsn; right; exact Hm|exact Hl].
        intros y Hy. apply in_app_iff in Hy. destruct Hy as [Hy|[<-|[]]]; [apply Ha, Hy|exact Hk].
      + assert (Hk : ~ In k p) by (intros Hin; apply mem_In in Hin; congruence).
        destruct (find_node f d (done_state p) (fun _ => []) [] k sn) as [[r0 sn']|] eqn:Ef; [|discriminate].
        destruct (IH k sn r0 sn' Ef Hk (fun x => Hsn k x (or_introl eq_refl))) as [m [-> Hm]].
        inversion Hl; subst. exists m. split; [reflexivity|]. eapply desc_down; [|exact Ha|exact Hk|exact Hm].
        rewrite after_list_targets. exact Ea. }
  apply (G (after_targets d n) [] (set_insert n seen) eq_refl (fun x Hx => match Hx with end) Hs' H).
Qed.

Lemma next_descends m : next_node d p = Some m ->
  exists f, In f (node_ids d) /\ ~ In f p /\ (forall x, In x (node_ids d) -> ~ In x p -> f <= x) /\ descends d p f m.
Proof.
  unfold next_node. intros H.
  destruct (rest_of d p) as [|f l] eqn:Er; [discriminate|].
  assert (Hf : forall x, In x (rest_of d p) <-> In x (node_ids d) /\ ~ In x p).
  { intros x. unfold rest_of. rewrite filter_In, fold_insert_In, negb_true_iff. split.
    - intros [[H1|[]] H2]. split; [exact H1|]. intros Hin. apply mem_In in Hin. congruence.
    - intros [H1 H2]. split; [left; exact H1|]. destruct (mem x p) eqn:E; [apply mem_In in E; contradiction|reflexivity]. }
  assert (Hso : sorted (rest_of d p)).
  { unfold rest_of. assert (H0 := fold_insert_sorted (node_ids d) [] sorted_nil).
    induction H0 as [|x l' Hx Hl IH]; cbn; [constructor|]. destruct (negb (mem x p)); [|exact IH].
    constructor; [|exact IH]. intros y Hy. apply filter_In in Hy. apply Hx, Hy. }
  exists f. assert (Hin : In f (rest_of d p)) by (rewrite Er; left; reflexivity).
  apply Hf in Hin. destruct Hin as [Hi Hp]. split; [exact Hi|]. split; [exact Hp|]. split.
  - intros x Hx Hxp. assert (In x (rest_of d p)) by (apply Hf; auto). rewrite Er in H0, Hso.
    inversion Hso; subst. destruct H0 as [->|H0]; [lia|]. apply Nat.lt_le_incl. auto.
  - cbn [find_candidate] in H.
    destruct (find_node _ d (done_state p) (fun _ => []) [] f []) as [[r sn]|] eqn:Ef; [|discriminate].
    destruct (find_node_descends _ _ _ _ _ Ef Hp (fun x _ Hx => Hx)) as [m' [-> Hd]]. inversion H; subst. exact Hd.
Qed.
End Descend.

Lemma gen_prefix d l : gen d l -> forall p n q, l = p ++ n :: q -> next_node d p = Some n.
Proof.
  induction 1 as [|l m Hl IH Hn]; intros p n q E; [destruct p; discriminate|].
  destruct q as [|y q] using rev_ind.
  - apply app_inj_tail in E. destruct E as [-> ->]. exact Hn.
  - clear IHq. change (n :: q ++ [y]) with ((n :: q) ++ [y]) in E. rewrite app_assoc in E. apply app_inj_tail in E.
    destruct E as [-> _]. eapply IH. reflexivity.
Qed.

Lemma descent_order : forall c z s er p n q,
  wf_dag (c_dag c) -> c_threads c <= 1 -> reachable c z s -> result s = RRecord er ->
  map r_node (er_runs er) = p ++ n :: q ->
  exists f, In f (node_ids (c_dag c)) /\ ~ In f p /\
    (forall x, In x (node_ids (c_dag c)) -> ~ In x p -> f <= x) /\ descends (c_dag c) p f n.
Proof.
  intros c z s er p n q Hwf Ht HR E El.
  assert (Hac : acyclic (c_dag c)).
  { intros Hc. apply (proj2 (cycle_never_runs c z s Hwf HR Hc) er), E. }
  destruct (result_record_pc _ _ E) as [P _].
  destruct (proj2 (order_reachable c z s Hwf Ht HR) P) as [G _].
  rewrite (finished_runs c z s Hwf HR er E), <- recs_trace in El.
  apply next_descends; [exact Hac|]. eapply gen_prefix; eassumption.
Qed.
