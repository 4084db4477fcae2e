(** Cases for C104. *)
From Coq Require Import Lia String Permutation Relations.
From Verif Require Import Model.Common Model.Records Model.Jobs Model.TaskSet Model.Dag
     Model.Sched Model.Exec Model.ExecSet Spec.Graph Spec.Trace Spec.Tasks
     Proofs.Sets Proofs.SchedFacts Proofs.InvalFacts Proofs.TraceFacts Proofs.ExecInv
     Proofs.ExecStep Proofs.ExecCtl Proofs.LogFacts Proofs.ExecProps Proofs.ExecProps2
     Proofs.StepCases Proofs.ExecProps3 Proofs.Ticks Proofs.Threads Proofs.Determinism Proofs.SetExec
     Spec.Parallel Spec.Machine Spec.Redundant Properties.Demo Properties.TaskSets
     Proofs.DemoFacts Proofs.MachineFacts Proofs.MachineDemo Proofs.RedundantFacts.
Open Scope string_scope.
Open Scope nat_scope.
Open Scope list_scope.

(** With one thread, a task that is always picked first has ended before another begins. *)
Section First.
Variables (c : config) (m n : nid).
Hypothesis W : wf_dag (c_dag c).
Hypothesis One : c_threads c = 1.
Hypothesis Gen : forall l, gen (c_dag c) l -> l = [] \/ exists r, l = m :: r.
Hypothesis Hmn : m <> n.
Hypothesis Hinv : Invalidated c m.
Hypothesis Hreq : forall p, ~ requires (c_dag c) m p.

Definition waits (s : state) : Prop := s_fut s n <> FNone -> ended_l (s_log s) m.

Lemma first_step_waits z s l s' : reachable c z s -> waits s -> step c s l = Some s' -> waits s'.
Proof.
  intros HR H E H2. pose proof (r_inv c z s W HR) as HI.
  pose proof (reachable_step c z s l s' HR E) as HR'. pose proof (r_inv c z s' W HR') as HI'.
  assert (M : s_fut s n <> FNone -> ended_l (s_log s') m).
  { intros X. destruct (H X) as [o Ho]. exists o. destruct (step_log c s l s' W HI E) as [new ->].
    apply in_app_iff. right; exact Ho. }
  destruct (fut_step c s l s' n W HI E) as [F|[[F [[-> F']|[-> F']]]|[(o & F & -> & F')|(F & F' & ->)]]];
    try (apply M; congruence).
  assert (Hact : Determinism.active (s_pc s')).
  { cbn [step] in E. destruct (ctl_cases c s s' HI E) as
      [ph kept sl rest k s' Epc Esl _ Es|ph kept sl rest k s' Epc Esl _ _ Es
      |ph kept sl rest k s1 s' Epc Esl _ _ Es1 Es|ph kept sl rest k rec s' Epc Esl Ef Es
      |ph kept sl rest k rec s' Epc Esl Ht Es|ph kept sl rest k rec o s1 s2 s' Epc Esl _ Es1 Es2 Es
      |kept s1 s' Epc Es1 Es|kept s1 s' Epc Es1 Es|e s' Epc Es|e sl rest s' Epc _ Es|s' Epc Es|sl rest s' Epc _ Es];
    try (subst s'; cbn; rewrite ?Epc; exact I); try (subst s' s1; cbn; exact I);
    try (exfalso; apply H2; subst s'; exact F').
    subst s1. destruct (dispatch_cases c s kept s' W HI Epc Es) as [s' E1 E2 E3 E4|m0 s' E1 E2 E3 E4|s' E1 E2 E3];
    rewrite E1; exact I. }
  assert (Hw : unfin (s_fut s' n)).
  { destruct (s_fut s' n); cbn in F |- *; try discriminate; try exact I. congruence. }
  destruct (k_unfin _ _ _ _ (i_core _ _ HI') n Hw) as [rec Hl].
  pose proof (k_bound _ _ _ _ (i_core _ _ HI')) as Hb. rewrite One in Hb. change (Nat.max 1 1) with 1 in Hb.
  assert (El : live s' = [Coro n (CWait rec)]).
  { destruct (live s') as [|k [|k' r]]; [destruct Hl| |cbn in Hb; lia]. destruct Hl as [->|[]]. reflexivity. }
  assert (O1 : 1 <= 1) by lia.
  destruct (Gen _ (proj1 (order_reachable c z s' W ltac:(rewrite One; exact O1) HR') Hact)) as [G|[r G]];
    unfold order_of in G; rewrite El in G; cbn [map] in G.
  - destruct (map r_node (recs (s_log s'))); discriminate G.
  - destruct (recs (s_log s')) as [|r0 rs] eqn:Er; [cbn in G; injection G as G _; congruence|]. cbn in G. injection G as G _.
    assert (Hr : recorded_l (s_log s') m) by (exists r0; rewrite Er; split; [left; reflexivity|exact G]).
    destruct (recorded_settled c (s_log s') m (r_log c z s' W HR') Hr) as [[o Ho]|[Hi|(p & Hp & _)]].
    + exists o. apply J_end, Ho.
    + destruct (Hi Hinv).
    + destruct (Hreq p Hp).
Qed.

Lemma never_first z s : reachable c z s -> jobs (trace s) <> [Begins n].
Proof.
  intros HR EJ. assert (G : waits s).
  { destruct HR as [ls Er]. assert (X : forall ls s0, reachable c z s0 -> waits s0 -> run_labels c s0 ls = Some s -> waits s).
    { induction ls0 as [|l ls0 IH]; intros s0 HR0 H0 E0; [injection E0 as <-; exact H0|].
      cbn [run_labels] in E0. destruct (step c s0 l) as [s1|] eqn:E1; [|discriminate E0].
      apply (IH s1); [eapply reachable_step; eassumption|eapply first_step_waits; eassumption|exact E0]. }
    apply (X ls (init z)); [exists []; reflexivity|intros Y; exfalso; apply Y; reflexivity|exact Er]. }
  change (J (s_log s) = [Begins n]) in EJ.
  assert (Hb : In (EBegin n) (s_log s)) by (apply J_begin; rewrite EJ; left; reflexivity).
  destruct G as [o Ho].
  - pose proof (k_fut _ _ _ _ (i_core _ _ (r_inv c z s W HR)) n) as K. intros F. rewrite F in K. cbn in K. tauto.
  - apply J_end in Ho. rewrite EJ in Ho. destruct Ho as [Ho|[]]. discriminate Ho.
Qed.
End First.

(** 1 is to run after 3 and 4, 3 after 2.  To say that 1 is to run after 2 is redundant. *)
Definition fork_dag : dag :=
  Dag [DNode 1 "a" 1; DNode 2 "b" 2; DNode 3 "c" 3; DNode 4 "d" 4]
      [Edge 1 4 AFTER; Edge 1 3 AFTER; Edge 3 2 AFTER].
Definition fork (k : nat) : config :=
  Config fork_dag k (fun _ => Task true [] [] [] [] false) (fun _ => IvRet true "").
Lemma fork_wf k : wf_dag (c_dag (fork k)).
Proof. apply wf_dagb_wf. vm_compute. reflexivity. Qed.
Lemma fork_ra k : requires_after (c_dag (fork k)).
Proof. intros a b H. cbn in H. repeat destruct H as [H|H]; try discriminate H. destruct H. Qed.
Lemma fork_path k : clos_trans nid (runs_after (c_dag (fork k))) 1 2.
Proof. apply (t_trans _ _ 1 3 2); apply t_step; cbn; tauto. Qed.
Definition fork_state : state := go (fork 1) (chase (fork 1) 40 (init 0) [Begins 4]).
Lemma reach_fork : reachable (fork 1) 0 fork_state.
Proof. apply go_reachable. vm_compute. reflexivity. Qed.
Lemma fork_jobs : jobs (trace fork_state) = [Begins 4].
Proof. vm_compute. reflexivity. Qed.
Lemma fork_gen l : gen (c_dag (with_edge (fork 1) 1 2 AFTER)) l -> l = [] \/ exists r, l = 2 :: r.
Proof.
  induction 1 as [|l m Hl IH Hm]; [left; reflexivity|right]. destruct IH as [->|[r ->]].
  - vm_compute in Hm. injection Hm as <-. exists []. reflexivity.
  - exists (r ++ [m]). reflexivity.
Qed.
Lemma fork_never z s : reachable (with_edge (fork 1) 1 2 AFTER) z s -> jobs (trace s) <> [Begins 4].
Proof.
  apply (never_first (with_edge (fork 1) 1 2 AFTER) 2 4).
  - apply wf_dagb_wf. vm_compute. reflexivity.
  - reflexivity.
  - exact fork_gen.
  - discriminate.
  - exists 2. split; [apply rt_refl|]. exists "". reflexivity.
  - intros p H. cbn in H. repeat destruct H as [H|H]; try discriminate H. destruct H.
Qed.
Lemma fork_plenty : plenty (fork 4).
Proof. split; [intros a b _ _ _ r []|vm_compute; lia]. Qed.
Definition fork4_steps : list job_step :=
  [Begins 4; Begins 2; Ends 4 ok; Ends 2 ok; Begins 3; Ends 3 ok; Begins 1].
Definition fork4_state : state := go (fork 4) (chase (fork 4) 80 (init 0) fork4_steps).
Lemma reach_fork4 : reachable (fork 4) 0 fork4_state.
Proof. apply go_reachable. vm_compute. reflexivity. Qed.
Lemma fork4_jobs : jobs (trace fork4_state) = fork4_steps.
Proof. vm_compute. reflexivity. Qed.

(** The demo set, in which app (3) declares once more that it depends on gen (1). *)
Definition again_store : store := store_set demo_store 3 (add_depends_on 1 (st_get demo_store 3)).
Definition again_demo : config :=
  match exec_set again_store demo_set 2 "" demo_inval (fun t => t) (fun l => l) (fun l => l) with
  | Built c => c
  | _ => set_demo
  end.
Lemma exec_again : execution_of again_store demo_set "" demo_inval (fun t => t) again_demo.
Proof.
  exists 2, (fun l => l), (fun l => l).
  split; [intros l; apply Permutation_refl|]. split; [intros l; apply Permutation_refl|].
  split; [exact demo_ordered|]. split; [exact demo_owned|].
  split; [split; [auto|intros a _ []]|]. vm_compute. reflexivity.
Qed.
Definition again_end : state := go again_demo (drive again_demo lib_fails 80 (init 0)).
Lemma reach_again : reachable again_demo 0 again_end.
Proof. apply go_reachable. vm_compute. reflexivity. Qed.
Lemma app_gen : clos_trans tid (depends_on demo_store) 3 1.
Proof. apply (t_trans _ _ 3 2 1); apply t_step; unfold depends_on; cbn; tauto. Qed.
