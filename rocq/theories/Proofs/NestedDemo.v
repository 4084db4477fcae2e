(** Checking the conditions of Spec/Nested.v on given histories. *)
From Coq Require Import Lia String.
From Verif Require Import Model.Common Model.Records Model.Jobs Model.TaskSet Model.Dag
     Model.Sched Model.Exec Model.World Spec.Graph Spec.Trace Spec.World Spec.Races Spec.Nested Spec.WorldRaces
     Proofs.Sets Proofs.WorldFacts Proofs.WorldDemo.
Open Scope nat_scope.
Open Scope list_scope.

Section Check.
Variable cs : nat -> config.
Variable owner : nat -> option (nat * nid).
Variable n : nat.
Hypothesis Hown : forall j, n <= j -> owner j = None.
Variable P : world -> nat -> label -> bool.

Fixpoint check_all (w : world) (ls : list (nat * label)) : bool :=
  match ls with
  | [] => true
  | (i, l) :: r => (i <? n) && P w i l && match world_step cs w (i, l) with Some w' => check_all w' r | None => true end
  end.

Lemma check_all_sound : forall ls w0, check_all w0 ls = true -> forall p i l q w,
  ls = p ++ (i, l) :: q -> run_world cs w0 p = Some w -> P w i l = true /\ i < n /\ (forall j, n <= j -> w j = w0 j).
Proof.
  induction ls as [|[i0 l0] ls IH]; intros w0 H p i l q w E Er; [destruct p; discriminate|].
  cbn [check_all] in H. apply andb_true_iff in H. destruct H as [H H3]. apply andb_true_iff in H. destruct H as [H1 H2].
  apply Nat.ltb_lt in H1. destruct p as [|a p].
  - inversion E; subst. inversion Er; subst w. auto.
  - inversion E; subst. cbn [run_world] in Er. destruct (world_step cs w0 (i0, l0)) as [w1|] eqn:E1; [|discriminate].
    destruct (IH w1 H3 p i l q w eq_refl Er) as (A & B & C). split; [exact A|]. split; [exact B|].
    intros j Hj. rewrite (C j Hj). unfold world_step in E1. cbn [fst snd] in E1.
    destruct (step (cs i0) (w0 i0) l0); [|discriminate]. inversion E1; subst w1. unfold upd.
    destruct (Nat.eqb_spec j i0); [lia|reflexivity].
Qed.
End Check.

Section Nested.
Variable cs : nat -> config.
Variable owner : nat -> option (nat * nid).
Variable n : nat.
Hypothesis Hown : forall j, n <= j -> owner j = None.

Definition made_b (w : world) (i : nat) (l : label) : bool :=
  match owner i with Some (k, m) => env_label l || mem m (running (trace (w k))) | None => true end.
Definition waited_b (w : world) (i : nat) (l : label) : bool :=
  match l with
  | LEnd m _ => forallb (fun j => match owner j with
                                  | Some (i', m') => negb ((i' =? i) && (m' =? m)) || rest_b (w j)
                                  | None => true
                                  end) (seq 0 n)
  | _ => true
  end.
Definition same_owner (a b : option (nat * nid)) : bool :=
  match a, b with
  | None, None => true
  | Some (i, m), Some (i', m') => (i =? i') && (m =? m')
  | _, _ => false
  end.
Definition turn_b (w : world) (i : nat) (l : label) : bool :=
  negb (tick_b (w i) l) || forallb (fun j => (j =? i) || negb (same_owner (owner j) (owner i)) || rest_b (w j)) (seq 0 n).

Lemma rest_b_sound s : rest_b s = true -> not_in_progress s.
Proof. unfold rest_b, not_in_progress, done. destruct (s_pc s); try discriminate; auto. Qed.

Lemma made_b_sound z ls : check_all cs n made_b (world_init z) ls = true -> made_inside cs owner z ls.
Proof.
  intros H p i l q w E Er k m Ho Hl. destruct (check_all_sound _ _ _ ls _ H p i l q w E Er) as (A & _). unfold made_b in A.
  rewrite Ho, Hl in A. cbn in A. now apply mem_In in A.
Qed.
Lemma waited_b_sound z ls : check_all cs n waited_b (world_init z) ls = true -> waited_for cs owner z ls.
Proof.
  intros H p i l q w E Er m o j Ho ->. destruct (check_all_sound _ _ _ ls _ H p i _ q w E Er) as (A & _). cbn in A.
  rewrite forallb_forall in A. destruct (Nat.lt_ge_cases j n) as [Hj|Hj]; [|rewrite (Hown j Hj) in Ho; discriminate].
  specialize (A j ltac:(apply in_seq; lia)). rewrite Ho, !Nat.eqb_refl in A. cbn in A. now apply rest_b_sound.
Qed.
Lemma turn_b_sound z ls : check_all cs n turn_b (world_init z) ls = true -> in_turn cs owner z ls.
Proof.
  intros H p i l q w E Er j Ho Hij Ht. destruct (check_all_sound _ _ _ ls _ H p i l q w E Er) as (A & _ & C).
  destruct (Nat.lt_ge_cases j n) as [Hj|Hj]; [|rewrite (C j Hj); left; reflexivity].
  unfold turn_b in A. apply orb_true_iff in A. destruct A as [A|A].
  - exfalso. apply negb_true_iff in A. destruct Ht as [->|[[k ->] Ht]]; cbn in A; [discriminate|]. rewrite Ht in A. discriminate.
  - rewrite forallb_forall in A. specialize (A j ltac:(apply in_seq; lia)). rewrite Ho in A.
    assert (S1 : same_owner (owner i) (owner i) = true) by (destruct (owner i) as [[a b]|]; cbn; rewrite ?Nat.eqb_refl; reflexivity).
    rewrite S1, (proj2 (Nat.eqb_neq j i) Hij) in A. cbn in A. now apply rest_b_sound.
Qed.
End Nested.
