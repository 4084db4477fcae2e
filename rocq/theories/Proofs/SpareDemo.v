(** Cases for C107. *)
From Coq Require Import Lia String Permutation Relations.
From Verif Require Import Model.Common Model.Records Model.Jobs Model.TaskSet Model.Dag
     Model.Sched Model.Exec Spec.Graph Spec.Trace Spec.Machine Spec.Constraints Spec.Spare
     Proofs.Sets Properties.Demo Proofs.DemoFacts Proofs.RedundantDemo Proofs.SpareFacts.
Open Scope string_scope.
Open Scope nat_scope.
Open Scope list_scope.

(** The tasks under way, computed. *)
Definition begun_list (tr : list event) : list nid :=
  flat_map (fun e => match e with EBeforeRun _ n => [n] | _ => [] end) tr.
Definition under_list (tr : list event) : list nid :=
  filter (fun n => negb (mem n (map r_node (records tr)))) (begun_list tr).

Lemma under_list_In tr n : under_way tr n -> In n (under_list tr).
Proof.
  intros [[er B] Hr]. apply filter_In. split.
  - apply in_flat_map. exists (EBeforeRun er n). split; [exact B|left; reflexivity].
  - apply Bool.negb_true_iff. destruct (mem n (map r_node (records tr))) eqn:E; [|reflexivity].
    exfalso. apply Hr. apply mem_In in E. apply in_map_iff in E as (r & En & Hin). exists r. split; assumption.
Qed.

Lemma enough_by c tr k :
  forallb (fun i => List.length (under_list (firstn i tr)) <? k) (seq 0 (S (List.length tr))) = true ->
  enough_for c tr k.
Proof.
  intros H pre post n l E _ N U. rewrite forallb_forall in H.
  specialize (H (List.length pre)). rewrite E, firstn_app, Nat.sub_diag, firstn_all in H. cbn [firstn] in H. rewrite app_nil_r in H.
  assert (Hl : List.length (under_list pre) < k).
  { apply Nat.ltb_lt, H, in_seq. rewrite app_length. lia. }
  pose proof (NoDup_incl_length N (fun x Hx => under_list_In pre x (U x Hx))). lia.
Qed.

(** Five independent tasks; 5 is to be done, the others are up to date. *)
Definition five (k : nat) : config :=
  Config (Dag [DNode 1 "a" 1; DNode 2 "b" 2; DNode 3 "c" 3; DNode 4 "d" 4; DNode 5 "e" 5] [])
    k (fun _ => Task true [] [] [] [] false) (fun n => IvRet (n =? 5) "").
Definition five_run : list label := drive (five 2) (fun _ => ok) 60 (init 0).
Definition five_end : state := go (five 2) five_run.

Lemma fork_width k : width_at_most (fork k) 2.
Proof.
  apply (width_groups (fork k) 2 (fun n => if n =? 4 then 1 else 0)).
  - intros n _. destruct (n =? 4); lia.
  - assert (P : forall a b, In (Edge a b AFTER) (d_edges fork_dag) -> clos_trans nid (runs_after (c_dag (fork k))) a b).
    { intros a b H. apply t_step. exact H. }
    assert (P12 : clos_trans nid (runs_after (c_dag (fork k))) 1 2) by apply fork_path.
    assert (P13 : clos_trans nid (runs_after (c_dag (fork k))) 1 3) by (apply P; cbn; tauto).
    assert (P32 : clos_trans nid (runs_after (c_dag (fork k))) 3 2) by (apply P; cbn; tauto).
    intros a b Ha Hb Hne E (A1 & A2 & _). cbn in Ha, Hb.
    destruct Ha as [<-|[<-|[<-|[<-|[]]]]], Hb as [<-|[<-|[<-|[<-|[]]]]]; cbn in E; try discriminate E;
      try (exact (Hne eq_refl)); (exact (A1 P12) || exact (A1 P13) || exact (A1 P32) || exact (A2 P12) || exact (A2 P13) || exact (A2 P32)).
Qed.
Definition fork_run (k : nat) : list label := drive (fork k) (fun _ => ok) 60 (init 0).
(** 4 and 2 are being executed at the same time. *)
Definition both_labels : list label :=
  [LTick; LCtl; LTick; LCtl; LCtl; LCtl; LTick; LCtl; LCtl; LBegin 4; LBegin 2].
(** Three tasks that need resource 7. *)
Definition shared : config :=
  Config (Dag [DNode 1 "a" 1; DNode 2 "b" 2; DNode 3 "c" 3] [])
    3 (fun _ => Task true [] [] [] [7] false) (fun _ => IvRet true "").
Lemma five_wf : wf_dag (c_dag (five 2)).
Proof. apply wf_dagb_wf. vm_compute. reflexivity. Qed.
Lemma five_width : ~ width_at_most (five 2) 4.
Proof.
  intros W. assert (L : List.length (node_ids (c_dag (five 2))) <= 4).
  { apply W; [apply five_wf|apply incl_refl|]. intros a b _ _ _.
    assert (G : forall x y, ~ clos_trans nid (runs_after (c_dag (five 2))) x y).
    { intros x y H. induction H as [x y H|]; [destruct H|assumption]. }
    split; [apply G|]. split; [apply G|]. intros r []. }
  cbn in L. lia.
Qed.
