(** Lemmas about Model/Common.v. *)
From Coq Require Import Lia Permutation.
From Verif Require Import Model.Common.

Lemma mem_In x l : mem x l = true <-> In x l.
Proof.
  unfold mem. rewrite existsb_exists. split.
  - intros [y [H E]]. apply Nat.eqb_eq in E. subst. exact H.
  - intros H. exists x. split; [exact H|apply Nat.eqb_refl].
Qed.

Lemma mem_false x l : mem x l = false <-> ~ In x l.
Proof.
  rewrite <- mem_In. destruct (mem x l); split; congruence.
Qed.

Lemma set_insert_In x l y : In y (set_insert x l) <-> y = x \/ In y l.
Proof.
  induction l as [|z r IH]; cbn [set_insert].
  - cbn. intuition.
  - destruct (Nat.ltb_spec x z); [cbn; intuition|].
    destruct (Nat.eqb_spec x z) as [->|]; [cbn; intuition|].
    cbn. rewrite IH. intuition.
Qed.

Lemma set_erase_In x l y : In y (set_erase x l) <-> In y l /\ y <> x.
Proof.
  unfold set_erase. rewrite filter_In. rewrite negb_true_iff, Nat.eqb_neq. reflexivity.
Qed.

(** Ascending lists. *)
Inductive sorted : list nat -> Prop :=
| sorted_nil : sorted []
| sorted_cons x l : (forall y, In y l -> x < y) -> sorted l -> sorted (x :: l).

Lemma set_insert_sorted x l : sorted l -> sorted (set_insert x l).
Proof.
  induction 1 as [|z r Hz Hr IH]; cbn [set_insert].
  - constructor; [intros y []|constructor].
  - destruct (Nat.ltb_spec x z) as [Hlt|Hge].
    + constructor; [|constructor; assumption].
      intros y [->|Hy]; [exact Hlt|]. specialize (Hz y Hy). lia.
    + destruct (Nat.eqb_spec x z) as [->|Hne]; [constructor; assumption|].
      constructor; [|exact IH].
      intros y Hy. apply set_insert_In in Hy. destruct Hy as [->|Hy]; [lia|auto].
Qed.

Lemma set_erase_sorted x l : sorted l -> sorted (set_erase x l).
Proof.
  induction 1 as [|z r Hz Hr IH]; cbn; [constructor|].
  destruct (negb (z =? x)); [|exact IH].
  constructor; [|exact IH].
  intros y Hy. apply filter_In in Hy. apply Hz, Hy.
Qed.

Lemma sorted_NoDup l : sorted l -> NoDup l.
Proof.
  induction 1 as [|x l Hx Hl IH]; constructor; [|exact IH].
  intros Hin. specialize (Hx x Hin). lia.
Qed.

Lemma set_insert_NoDup x l : sorted l -> NoDup (set_insert x l).
Proof. intros H. apply sorted_NoDup, set_insert_sorted, H. Qed.

(** Two ascending lists with the same elements are equal. *)
Lemma sorted_ext l1 l2 :
  sorted l1 -> sorted l2 -> (forall x, In x l1 <-> In x l2) -> l1 = l2.
Proof.
  intros H1; revert l2; induction H1 as [|x l1 Hx Hl IH]; intros l2 H2 Heq.
  - destruct l2 as [|y l2]; [reflexivity|]. exfalso. apply (Heq y). left; reflexivity.
  - destruct H2 as [|y l2 Hy H2].
    + exfalso. apply (Heq x). left; reflexivity.
    + assert (x = y) as ->.
      { destruct (proj1 (Heq x) (or_introl eq_refl)) as [->|Hin]; [reflexivity|].
        destruct (proj2 (Heq y) (or_introl eq_refl)) as [->|Hin']; [reflexivity|].
        specialize (Hx y Hin'). specialize (Hy x Hin). lia. }
      f_equal. apply IH; [exact H2|]. intros z. split; intros Hz.
      * destruct (proj1 (Heq z) (or_intror Hz)) as [<-|]; [|assumption].
        specialize (Hx y Hz). lia.
      * destruct (proj2 (Heq z) (or_intror Hz)) as [<-|]; [|assumption].
        specialize (Hy y Hz). lia.
Qed.

Lemma fold_insert_In xs : forall l y,
  In y (fold_left (fun l n => set_insert n l) xs l) <-> In y xs \/ In y l.
Proof.
  induction xs as [|x xs IH]; intros l y; cbn [fold_left].
  - cbn. intuition.
  - rewrite IH, set_insert_In. cbn. intuition.
Qed.

Lemma fold_insert_sorted xs : forall l,
  sorted l -> sorted (fold_left (fun l n => set_insert n l) xs l).
Proof.
  induction xs as [|x xs IH]; intros l Hl; cbn [fold_left]; [exact Hl|].
  apply IH, set_insert_sorted, Hl.
Qed.

Lemma fold_erase_In xs : forall l y,
  In y (fold_left (fun l n => set_erase n l) xs l) <-> In y l /\ ~ In y xs.
Proof.
  induction xs as [|x xs IH]; intros l y; cbn [fold_left].
  - cbn. intuition.
  - rewrite IH, set_erase_In. cbn. intuition.
Qed.

Lemma set_erase_notin x l : ~ In x l -> set_erase x l = l.
Proof.
  intros H. unfold set_erase. induction l as [|y r IH]; [reflexivity|].
  cbn. destruct (Nat.eqb_spec y x) as [->|]; [exfalso; apply H; left; reflexivity|].
  cbn. f_equal. apply IH. intros Hin. apply H. right; exact Hin.
Qed.

Lemma Permutation_set_erase x l :
  NoDup l -> In x l -> Permutation l (x :: set_erase x l).
Proof.
  induction l as [|y r IH]; intros Hnd Hin; [destruct Hin|].
  inversion Hnd as [|? ? Hy Hr]; subst. cbn.
  destruct (Nat.eqb_spec y x) as [->|Hne]; cbn.
  - fold (set_erase x r). rewrite set_erase_notin by exact Hy. reflexivity.
  - destruct Hin as [->|Hin]; [congruence|].
    fold (set_erase x r). rewrite (IH Hr Hin) at 1. apply perm_swap.
Qed.

Lemma upd_same {A} (f : nat -> A) n v : upd f n v n = v.
Proof. unfold upd. rewrite Nat.eqb_refl. reflexivity. Qed.

Lemma upd_other {A} (f : nat -> A) n v x : x <> n -> upd f n v x = f x.
Proof. intros H. unfold upd. apply Nat.eqb_neq in H. rewrite H. reflexivity. Qed.

Lemma NoDup_app_iff {A} (l1 l2 : list A) :
  NoDup (l1 ++ l2) <-> NoDup l1 /\ NoDup l2 /\ (forall x, In x l1 -> In x l2 -> False).
Proof.
  induction l1 as [|a l1 IH]; cbn.
  - split; [intros H; repeat split; [constructor|exact H|tauto]|tauto].
  - rewrite !NoDup_cons_iff, IH, in_app_iff. split.
    + intros [H1 [H2 [H3 H4]]]. repeat split; auto.
      intros x [->|Hx] Hx2; eauto.
    + intros [[H1 H2] [H3 H4]]. repeat split; auto.
      * intros [Hx|Hx]; [auto|]. apply (H4 a); auto.
      * intros x Hx Hx2. apply (H4 x); auto.
Qed.

Lemma in_mid {A} (x k : A) l1 l2 : In x (l1 ++ k :: l2) <-> x = k \/ In x (l1 ++ l2).
Proof.
  rewrite !in_app_iff. cbn. intuition.
Qed.

Lemma app_cons_cases {A} (l1 : list A) : forall l2 a x b,
  l1 ++ l2 = a ++ x :: b ->
  (exists l1', l1 = a ++ x :: l1' /\ b = l1' ++ l2) \/
  (exists a', a = l1 ++ a' /\ l2 = a' ++ x :: b).
Proof.
  induction l1 as [|y l1 IH]; intros l2 a x b E.
  - right. exists a. split; [reflexivity|exact E].
  - destruct a as [|z a]; cbn in E.
    + left. inversion E; subst. exists l1. split; reflexivity.
    + inversion E as [[Ez E']]. subst z.
      destruct (IH _ _ _ _ E') as [[l' [-> ->]]|[a' [-> ->]]].
      * left. exists l'. split; reflexivity.
      * right. exists a'. split; reflexivity.
Qed.
