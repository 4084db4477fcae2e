(** Checking the conditions of Spec/World.v on given histories. *)
From Coq Require Import Lia String.
From Verif Require Import Model.Common Model.Records Model.Jobs Model.TaskSet Model.Dag
     Model.Sched Model.Exec Model.World Spec.Graph Spec.Trace Spec.World Proofs.WorldFacts.
Open Scope nat_scope.
Open Scope list_scope.

Section Check.
Variable cs : nat -> config.
Variable n : nat.
Variable P : state -> label -> state -> bool.

Fixpoint check (w : world) (ls : list (nat * label)) : bool :=
  match ls with
  | [] => true
  | (i, l) :: r =>
      (i <? n) && forallb (fun j => (j =? i) || P (w i) l (w j)) (seq 0 n) &&
      match world_step cs w (i, l) with Some w' => check w' r | None => true end
  end.

Lemma check_sound : forall ls w0, check w0 ls = true -> forall p i l q w,
  ls = p ++ (i, l) :: q -> run_world cs w0 p = Some w ->
  (forall j, j <> i -> j < n -> P (w i) l (w j) = true) /\ (forall j, n <= j -> w j = w0 j).
Proof.
  induction ls as [|[i0 l0] ls IH]; intros w0 H p i l q w E Er; [destruct p; discriminate|].
  cbn [check] in H. apply andb_true_iff in H. destruct H as [H H3]. apply andb_true_iff in H. destruct H as [H1 H2].
  destruct p as [|a p].
  - inversion E; subst. inversion Er; subst w. split; [|auto].
    intros j Hj Hn. rewrite forallb_forall in H2. specialize (H2 j). rewrite in_seq in H2.
    specialize (H2 ltac:(lia)). apply orb_true_iff in H2. destruct H2 as [H2|H2]; [|exact H2].
    apply Nat.eqb_eq in H2. congruence.
  - inversion E; subst. cbn [run_world] in Er. destruct (world_step cs w0 (i0, l0)) as [w1|] eqn:E1; [|discriminate].
    destruct (IH w1 H3 p i l q w eq_refl Er) as [A B]. split; [exact A|].
    intros j Hj. rewrite (B j Hj). unfold world_step in E1. cbn [fst snd] in E1.
    destruct (step (cs i0) (w0 i0) l0); [|discriminate]. inversion E1; subst w1. unfold upd.
    apply Nat.ltb_lt in H1. destruct (Nat.eqb_spec j i0); [lia|reflexivity].
Qed.
End Check.

Definition rest_b (s : state) : bool :=
  match s_pc s with Created | Finished | Failed _ => true | _ => false end.
Definition tick_b (s : state) (l : label) : bool :=
  match l with LTick => true | LVisThrow _ => negb (tick_running s) | _ => false end.

Lemma one_at_a_time_b cs n z ls :
  check cs n (fun s l t => negb (tick_b s l) || rest_b t) (world_init z) ls = true -> one_at_a_time cs z ls.
Proof.
  intros H p i l q w E Er Ht j Hj. destruct (check_sound _ _ _ ls _ H p i l q w E Er) as [A B].
  destruct (Nat.lt_ge_cases j n) as [Hn|Hn].
  - specialize (A j Hj Hn). apply orb_true_iff in A. destruct A as [A|A].
    + exfalso. apply negb_true_iff in A. destruct Ht as [->|[[k ->] Ht]]; cbn in A; [discriminate|].
      rewrite Ht in A. discriminate.
    + unfold rest_b in A. unfold not_in_progress, done. destruct (s_pc (w j)); try discriminate; auto.
  - rewrite (B j Hn). left. reflexivity.
Qed.

Lemma one_client_b cs n z ls :
  check cs n (fun s l t => env_label l || negb (tick_running t)) (world_init z) ls = true -> one_client cs z ls.
Proof.
  intros H p i l q w E Er Ht j Hj. destruct (check_sound _ _ _ ls _ H p i l q w E Er) as [A B].
  destruct (Nat.lt_ge_cases j n) as [Hn|Hn].
  - specialize (A j Hj Hn). rewrite Ht in A. now apply negb_true_iff in A.
  - rewrite (B j Hn). reflexivity.
Qed.
