(** Cases for C105. *)
From Coq Require Import Lia String Permutation Relations.
From Verif Require Import Model.Common Model.Records Model.Jobs Model.TaskSet Model.Dag
     Model.Sched Model.Exec Model.ExecSet Spec.Graph Spec.Trace Spec.Tasks Proofs.Determinism Proofs.TaskFacts Proofs.SetExec
     Spec.Parallel Spec.Machine Spec.Redundant Spec.Constraints Properties.Demo Properties.TaskSets
     Proofs.DemoFacts Proofs.MachineFacts Proofs.MachineDemo Proofs.RedundantFacts Proofs.RedundantDemo Proofs.ConstraintFacts.
Open Scope string_scope.
Open Scope nat_scope.
Open Scope list_scope.

(** c (3) depends on a (1), b (2) is to run after a, b and c share a resource; two threads. *)
Definition tight_tasks (t : tid) : task :=
  if t =? 2 then Task true [] [1] [] [7] false
  else if t =? 3 then Task true [1] [] [] [7] false
  else Task true [] [] [] [] false.
Definition tight_store : store := Store [1; 2; 3] tight_tasks.
Definition abc : task_set := TaskSet [("a", 1); ("b", 2); ("c", 3)] [].
Definition changed (t : tid) : inval_answer := IvRet true "".
Definition built (o : build config) : config :=
  match o with Built c => c | _ => demo 2 end.
Definition tight : config :=
  built (exec_set tight_store abc 2 "" changed (fun t => t) (fun l => l) (fun l => l)).

(** Without the run_after and the resource; three threads, other places in memory, and the
    maps iterated the other way round. *)
Definition loose_tasks (t : tid) : task :=
  if t =? 3 then Task true [1] [] [] [] false else Task true [] [] [] [] false.
Definition loose_store : store := Store [1; 2; 3] loose_tasks.
Definition away (t : tid) : nid := 9 - t.
Definition loose : config :=
  built (exec_set loose_store abc 3 "" changed away (@rev (string * tid)) (@rev tid)).
Definition loose_here : config :=
  built (exec_set loose_store abc 3 "" changed (fun t => t) (fun l => l) (fun l => l)).

Lemma abc_ordered : ordered abc.
Proof. constructor; [repeat constructor..|]. intros ? ? []. Qed.
Lemma abc_owned : owned abc.
Proof. apply owned_visited. repeat constructor; cbn; intuition discriminate. Qed.
Lemma exec_tight : execution_of tight_store abc "" changed (fun t => t) tight.
Proof.
  exists 2, (fun l => l), (fun l => l).
  split; [intros l; apply Permutation_refl|]. split; [intros l; apply Permutation_refl|].
  split; [exact abc_ordered|]. split; [exact abc_owned|].
  split; [split; [auto|intros a _ []]|]. vm_compute. reflexivity.
Qed.
Lemma exec_loose_here : execution_of loose_store abc "" changed (fun t => t) loose_here.
Proof.
  exists 3, (fun l => l), (fun l => l).
  split; [intros l; apply Permutation_refl|]. split; [intros l; apply Permutation_refl|].
  split; [exact abc_ordered|]. split; [exact abc_owned|].
  split; [split; [auto|intros a _ []]|]. vm_compute. reflexivity.
Qed.
Lemma loose_selected t : selected loose_store abc "" t -> 1 <= t <= 3.
Proof.
  intros (p & r & H & _ & Hp). assert (Hr : 1 <= r <= 3).
  { inversion H as [tasks sets name t0 G|tasks sets name s p0 t0 G H']; subst.
    - destruct G as [G|[G|[G|[]]]]; injection G as _ <-; lia.
    - destruct G. }
  clear H. revert Hr. induction Hp as [x y D| |x y z _ I1 _ I2]; [|auto|auto].
  intros Hx. unfold depends_on in D. do 4 (destruct x as [|x]; [cbn in D; lia|]). lia.
Qed.
Lemma exec_loose : execution_of loose_store abc "" changed away loose.
Proof.
  exists 3, (@rev (string * tid)), (@rev tid).
  split; [intros l; apply Permutation_sym, Permutation_rev|]. split; [intros l; apply Permutation_sym, Permutation_rev|].
  split; [exact abc_ordered|]. split; [exact abc_owned|].
  split.
  - split; [|intros a _ []]. intros a b Ha Hb. apply loose_selected in Ha. apply loose_selected in Hb. unfold away. lia.
  - vm_compute. reflexivity.
Qed.
Lemma loose_fewer : fewer tight_store loose_store.
Proof.
  intros t. cbn zeta. unfold tight_store, loose_store, tight_tasks, loose_tasks. cbn [st_get].
  destruct (t =? 2) eqn:E2, (t =? 3) eqn:E3; try (apply Nat.eqb_eq in E2; subst t; discriminate E3);
    cbn; repeat split; intros; auto; contradiction.
Qed.
Lemma loose_plenty : plenty loose.
Proof. split; [|vm_compute; lia]. intros a b Ha Hb _ r Hr. vm_compute in Ha.
  destruct Ha as [<-|[<-|[<-|[]]]]; vm_compute in Hr; destruct Hr. Qed.

Definition tight_state : state :=
  go tight (chase tight 80 (init 0) [Begins 1; Ends 1 ok; Begins 2; Ends 2 failing; Begins 3]).
Lemma reach_tight : reachable tight 0 tight_state.
Proof. apply go_reachable. vm_compute. reflexivity. Qed.
Lemma tight_jobs : task_jobs tight (trace tight_state) = [Begins 1; Ends 1 ok; Begins 2; Ends 2 failing; Begins 3].
Proof. vm_compute. reflexivity. Qed.
Definition loose_state : state := go loose (chase loose 80 (init 0) [Begins 7; Begins 8; Ends 8 ok; Begins 6]).
Lemma reach_loose : reachable loose 0 loose_state.
Proof. apply go_reachable. vm_compute. reflexivity. Qed.
Lemma loose_jobs : task_jobs loose (trace loose_state) = [Begins 2; Begins 1; Ends 1 ok; Begins 3].
Proof. vm_compute. reflexivity. Qed.

(** One thread: without the redundant edge, 4 is picked first, with it 2. *)
Lemma fork1_gen l : gen (c_dag (fork 1)) l -> l = [] \/ exists r, l = 4 :: r.
Proof.
  induction 1 as [|l m Hl IH Hm]; [left; reflexivity|right]. destruct IH as [->|[r ->]].
  - vm_compute in Hm. injection Hm as <-. exists []. reflexivity.
  - exists (r ++ [m]). reflexivity.
Qed.
Lemma fork1_never z s : reachable (fork 1) z s -> jobs (trace s) <> [Begins 2].
Proof.
  apply (never_first (fork 1) 4 2).
  - apply fork_wf.
  - reflexivity.
  - exact fork1_gen.
  - discriminate.
  - exists 4. split; [apply rt_refl|]. exists "". reflexivity.
  - intros p H. cbn in H. repeat destruct H as [H|H]; try discriminate H. destruct H.
Qed.
Definition forked : config := with_edge (fork 1) 1 2 AFTER.
Definition forked_state : state := go forked (chase forked 40 (init 0) [Begins 2]).
Lemma reach_forked : reachable forked 0 forked_state.
Proof. apply go_reachable. vm_compute. reflexivity. Qed.
Lemma forked_jobs : jobs (trace forked_state) = [Begins 2].
Proof. vm_compute. reflexivity. Qed.
Lemma forked_looser : looser (fun n => n) forked (fork 1).
Proof.
  constructor; cbn [c_dag c_inval c_threads forked with_edge fork]; auto; try tauto.
  - intros m Hm. exists m. auto.
  - intros a b _ _ H. induction H as [a b H|a b x _ I1 _ I2]; [|eapply t_trans; eassumption].
    apply t_step. right. exact H.
  - intros a b _ _. split; intros H; induction H as [a b H|a b x _ I1 _ I2]; try (eapply t_trans; eassumption);
      apply t_step; [destruct H as [H|H]; [discriminate H|exact H]|right; exact H].
  - intros a b _ _. split; intros H; induction H as [a b H|a b x _ I1 _ I2]; try (eapply t_trans; eassumption);
      apply t_step; [destruct H as [H|H]; [discriminate H|exact H]|right; exact H].
Qed.
