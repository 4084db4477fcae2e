(** Facts about the concrete cases of Properties/Demo.v. *)
From Coq Require Import String Lia.
From Verif Require Import Model.Common Model.Records Model.Jobs Model.TaskSet Model.Dag
     Model.Sched Model.Exec Spec.Graph Spec.Trace Properties.Demo.
Open Scope string_scope.
Open Scope nat_scope.
Open Scope list_scope.

Definition wf_dagb (d : dag) : bool :=
  (fix nodup (l : list nat) : bool := match l with [] => true | x :: r => negb (mem x r) && nodup r end) (node_ids d)
  && forallb (fun e => mem (e_src e) (node_ids d) && mem (e_tgt e) (node_ids d)) (d_edges d).

Lemma mem_in x l : mem x l = true <-> In x l.
Proof.
  unfold mem. rewrite existsb_exists. split.
  - intros [y [H E]]. apply Nat.eqb_eq in E. subst. exact H.
  - intros H. exists x. split; [exact H|apply Nat.eqb_refl].
Qed.

Lemma wf_dagb_wf d : wf_dagb d = true -> wf_dag d.
Proof.
  unfold wf_dagb. rewrite andb_true_iff. intros [H1 H2]. split.
  - clear H2. induction (node_ids d) as [|x l IH]; [constructor|].
    apply andb_true_iff in H1. destruct H1 as [H1 H3]. constructor; [|exact (IH H3)].
    intros H. apply mem_in in H. rewrite H in H1. discriminate.
  - intros e He. rewrite forallb_forall in H2. specialize (H2 e He). apply andb_true_iff in H2.
    rewrite !mem_in in H2. exact H2.
Qed.

Lemma wf_demo : wf_dag demo_dag.
Proof. apply wf_dagb_wf. vm_compute. reflexivity. Qed.
Lemma wf_loop : wf_dag loop_dag.
Proof. apply wf_dagb_wf. vm_compute. reflexivity. Qed.

Lemma req_after_b d :
  forallb (fun e => negb (ekind_eqb (e_kind e) REQUIRES)
                    || existsb (fun e' => (e_src e' =? e_src e) && (e_tgt e' =? e_tgt e)
                                          && ekind_eqb (e_kind e') AFTER) (d_edges d)) (d_edges d) = true ->
  requires_after d.
Proof.
  intros H a b Hr. rewrite forallb_forall in H. specialize (H _ Hr). cbn in H.
  apply existsb_exists in H. destruct H as [[x y k] [Hin E]]. cbn in E.
  apply andb_true_iff in E. destruct E as [E Ek]. apply andb_true_iff in E. destruct E as [E1 E2].
  apply Nat.eqb_eq in E1, E2. subst. destruct k; try discriminate. exact Hin.
Qed.

Lemma req_after_demo : requires_after demo_dag.
Proof. apply req_after_b. vm_compute. reflexivity. Qed.

Lemma go_reachable c ls : match run_labels c (init 0) ls with Some _ => true | None => false end = true ->
  reachable c 0 (go c ls).
Proof.
  intros H. exists ls. unfold go. destruct (run_labels c (init 0) ls); [reflexivity|discriminate].
Qed.

Lemma go_run c ls : match run_labels c (init 0) ls with Some _ => true | None => false end = true ->
  run_labels c (init 0) ls = Some (go c ls).
Proof. intros H. unfold go. destruct (run_labels c (init 0) ls); [reflexivity|discriminate]. Qed.

Lemma reach_demo_ok0 : reachable (demo 0) 0 (demo_end 0 all_ok).
Proof. apply go_reachable. vm_compute. reflexivity. Qed.
Lemma reach_demo_ok1 : reachable (demo 1) 0 (demo_end 1 all_ok).
Proof. apply go_reachable. vm_compute. reflexivity. Qed.
Lemma reach_demo_ok : reachable (demo 2) 0 (demo_end 2 all_ok).
Proof. apply go_reachable. vm_compute. reflexivity. Qed.
Lemma reach_demo_fail : reachable (demo 2) 0 (demo_end 2 lib_fails).
Proof. apply go_reachable. vm_compute. reflexivity. Qed.
Lemma reach_demo_fail0 : reachable (demo 0) 0 (demo_end 0 lib_fails).
Proof. apply go_reachable. vm_compute. reflexivity. Qed.
Lemma reach_busy : reachable (demo 2) 0 demo_busy.
Proof. apply go_reachable. vm_compute. reflexivity. Qed.

Ltac find_in := vm_compute; repeat (first [left; reflexivity | right]).

Lemma nth_split_at {A} (l : list A) i x : nth_error l i = Some x -> l = firstn i l ++ x :: skipn (S i) l.
Proof.
  revert l; induction i as [|i IH]; intros [|y l] H; try discriminate; cbn in *.
  - inversion H. reflexivity.
  - f_equal. apply IH, H.
Qed.

Lemma fin_demo_ok : exists er, result (demo_end 2 all_ok) = RRecord er.
Proof. eexists. vm_compute. reflexivity. Qed.
Lemma fin_demo_fail : exists er, result (demo_end 2 lib_fails) = RRecord er.
Proof. eexists. vm_compute. reflexivity. Qed.

Lemma acyclic_rank d (rank : nid -> nat) :
  forallb (fun e => negb (ekind_eqb (e_kind e) AFTER) || (rank (e_tgt e) <? rank (e_src e))) (d_edges d) = true ->
  acyclic d.
Proof.
  intros H. assert (G : forall a b, clos_trans nid (runs_after d) a b -> rank b < rank a).
  { induction 1 as [a b Hab|a b c _ H1 _ H2]; [|lia].
    rewrite forallb_forall in H. specialize (H _ Hab). cbn in H. apply Nat.ltb_lt in H. exact H. }
  intros [n Hn]. specialize (G _ _ Hn). lia.
Qed.
Lemma acyclic_demo : acyclic demo_dag.
Proof. apply (acyclic_rank _ (fun n => n)). vm_compute. reflexivity. Qed.

(** One task whose job never begins (or ends) and is polled for ever. *)
Definition poll_cfg : config := Config (Dag [DNode 1 "a" 1] []) 2 demo_tasks (fun _ => IvRet true "").
Definition poll_lab (i : nat) : label :=
  nth i [LTick; LCtl; LTick; LCtl; LCtl; LCtl] (match i mod 3 with 0 => LTick | _ => LCtl end).
Fixpoint poll_st (i : nat) : state :=
  match i with
  | 0 => init 0
  | S j => match step poll_cfg (poll_st j) (poll_lab j) with Some s => s | None => poll_st j end
  end.
Definition poll_shape (s : state) : Prop :=
  s_pc s = Suspended PDrain /\ (exists rec, s_coros s = [Slot 1 (Coro 1 (CWait rec))]) /\
  s_fut s 1 = FPending /\ forall n o, ~ In (EEnd n o) (s_log s).

Lemma poll_turn s : poll_shape s -> exists s1 s2 s3,
  step poll_cfg s LTick = Some s1 /\ step poll_cfg s1 LCtl = Some s2 /\ step poll_cfg s2 LCtl = Some s3 /\
  poll_shape s3 /\ (forall n o, ~ In (EEnd n o) (s_log s1)) /\ (forall n o, ~ In (EEnd n o) (s_log s2)).
Proof.
  destruct s as [p todo ns used coros fut er clk log]. intros [E1 [[rec E2] [E3 E4]]]. cbn in E1, E2, E3, E4. subst p coros.
  eexists. eexists. eexists. split; [reflexivity|]. split; [unfold step, ctl; cbn; unfold run_poll; cbn; rewrite E3; reflexivity|]. split; [reflexivity|].
  split; [|split].
  - split; [reflexivity|]. split; [eexists; reflexivity|]. split; [exact E3|].
    cbn. intros n o [H|H]; [discriminate|exact (E4 n o H)].
  - exact E4.
  - cbn. intros n o [H|H]; [discriminate|exact (E4 n o H)].
Qed.

Lemma poll_st_S i s : step poll_cfg (poll_st i) (poll_lab i) = Some s -> poll_st (S i) = s.
Proof. intros E. cbn [poll_st]. rewrite E. reflexivity. Qed.

Lemma poll_lab_at k r : r < 3 -> poll_lab (6 + (3 * k + r)) = match r with 0 => LTick | _ => LCtl end.
Proof.
  intros Hr. unfold poll_lab. cbn [nth Nat.add].
  replace (S (S (S (S (S (S (3 * k + r))))))) with (r + (k + 2) * 3) by lia.
  rewrite Nat.mod_add by lia. rewrite Nat.mod_small by exact Hr.
  destruct (3 * k + r); reflexivity.
Qed.

Lemma poll_next k : poll_shape (poll_st (6 + 3 * k)) ->
  poll_shape (poll_st (6 + 3 * S k)) /\
  forall r, r < 3 -> step poll_cfg (poll_st (6 + (3 * k + r))) (poll_lab (6 + (3 * k + r))) = Some (poll_st (S (6 + (3 * k + r))))
    /\ forall n o, ~ In (EEnd n o) (s_log (poll_st (6 + (3 * k + r)))).
Proof.
  intros S0. destruct (poll_turn _ S0) as [s1 [s2 [s3 [T1 [T2 [T3 [S3 [N1 N2]]]]]]]].
  assert (L0 := poll_lab_at k 0 ltac:(lia)). assert (L1 := poll_lab_at k 1 ltac:(lia)). assert (L2 := poll_lab_at k 2 ltac:(lia)).
  replace (6 + (3 * k + 0)) with (6 + 3 * k) in L0 by lia.
  assert (P1 : poll_st (S (6 + 3 * k)) = s1).
  { apply poll_st_S. rewrite L0. exact T1. }
  replace (6 + (3 * k + 1)) with (S (6 + 3 * k)) in L1 by lia.
  assert (P2 : poll_st (S (S (6 + 3 * k))) = s2).
  { apply poll_st_S. rewrite P1, L1. exact T2. }
  replace (6 + (3 * k + 2)) with (S (S (6 + 3 * k))) in L2 by lia.
  assert (P3 : poll_st (S (S (S (6 + 3 * k)))) = s3).
  { apply poll_st_S. rewrite P2, L2. exact T3. }
  split.
  - replace (6 + 3 * S k) with (S (S (S (6 + 3 * k)))) by lia. rewrite P3. exact S3.
  - intros r Hr. destruct r as [|[|[|r]]]; [| | |lia].
    + replace (6 + (3 * k + 0)) with (6 + 3 * k) by lia. rewrite P1, L0. split; [exact T1|apply S0].
    + replace (6 + (3 * k + 1)) with (S (6 + 3 * k)) by lia. rewrite P2, P1, L1. split; [exact T2|exact N1].
    + replace (6 + (3 * k + 2)) with (S (S (6 + 3 * k))) by lia. rewrite P3, P2, L2. split; [exact T3|exact N2].
Qed.

Lemma poll_shapes k : poll_shape (poll_st (6 + 3 * k)).
Proof.
  induction k as [|k IH]; [|exact (proj1 (poll_next k IH))].
  split; [vm_compute; reflexivity|]. split; [eexists; vm_compute; reflexivity|]. split; [vm_compute; reflexivity|].
  vm_compute. intros n o H. repeat (destruct H as [H|H]; [discriminate|]). exact H.
Qed.

Lemma poll_all i : step poll_cfg (poll_st i) (poll_lab i) = Some (poll_st (S i))
  /\ forall n o, ~ In (EEnd n o) (s_log (poll_st i)).
Proof.
  destruct (le_lt_dec 6 i) as [H|H].
  - pose proof (Nat.div_mod (i - 6) 3 ltac:(lia)) as D. pose proof (Nat.mod_upper_bound (i - 6) 3 ltac:(lia)) as B.
    destruct (poll_next ((i - 6) / 3) (poll_shapes _)) as [_ G]. specialize (G ((i - 6) mod 3) B).
    replace (6 + (3 * ((i - 6) / 3) + (i - 6) mod 3)) with i in G by lia. exact G.
  - do 6 (destruct i as [|i]; [split; [vm_compute; reflexivity|
      vm_compute; intros n o F; repeat (destruct F as [F|F]; [discriminate|]); exact F]|]). lia.
Qed.

Lemma polling_forever : exists st lab, infinite_run poll_cfg 0 st lab /\ keeps_moving lab /\ ~ jobs_end st.
Proof.
  exists poll_st, poll_lab. split; [split; [reflexivity|apply poll_all]|]. split.
  - intros i. exists (i + 6). split; [lia|]. unfold poll_lab. rewrite nth_overflow by (cbn; lia).
    destruct ((i + 6) mod 3); reflexivity.
  - intros H. destruct (H 6 1) as [j [o Hj]].
    + vm_compute. tauto.
    + unfold trace in Hj. apply in_rev in Hj. exact (proj2 (poll_all j) _ _ Hj).
Qed.
