(** Programs that put task sets together (C95). *)
From Coq Require Import String Sorted Relations Lia.
From Verif Require Import Model.Common Model.Records Model.Jobs Model.TaskSet Model.Dag Model.Sched Model.Exec
     Model.ExecSet Model.Assemble Spec.Tasks Spec.Assembly Proofs.Sets Proofs.TaskFacts Proofs.BuildProps.
Open Scope string_scope.
Open Scope nat_scope.
Open Scope list_scope.

Lemma key_trans a b c : key_lt a b -> key_lt b c -> key_lt a c.
Proof.
  unfold key_lt. revert b c. induction a as [|x a IH]; intros [|y b] [|z c]; cbn; try discriminate; try reflexivity.
  unfold Ascii.compare.
  destruct (N.compare_spec (Ascii.N_of_ascii x) (Ascii.N_of_ascii y)) as [E1|L1|L1]; try discriminate;
  destruct (N.compare_spec (Ascii.N_of_ascii y) (Ascii.N_of_ascii z)) as [E2|L2|L2]; try discriminate; intros H1 H2.
  - rewrite E1, E2, N.compare_refl. eapply IH; eassumption.
  - rewrite E1. apply N.compare_lt_iff in L2. now rewrite L2.
  - rewrite <- E2. apply N.compare_lt_iff in L1. now rewrite L1.
  - assert (L : (Ascii.N_of_ascii x < Ascii.N_of_ascii z)%N) by (eapply N.lt_trans; eassumption).
    apply N.compare_lt_iff in L. now rewrite L.
Qed.

Lemma key_cases a b : key_lt a b \/ a = b \/ key_lt b a.
Proof.
  unfold key_lt. destruct (String.compare a b) eqn:E; auto.
  - right; left. now apply String.compare_eq_iff.
  - right; right. rewrite String.compare_antisym, E. reflexivity.
Qed.

Section Keys.
Context {A : Type}.
Implicit Type l : list (string * A).

Lemma put_keys k (v : A) l x : In x (map fst (key_put k v l)) <-> x = k \/ In x (map fst l).
Proof.
  induction l as [|[k' v'] l IH]; cbn; [intuition|].
  destruct (String.compare k k') eqn:E; cbn.
  - apply String.compare_eq_iff in E. subst. intuition.
  - intuition.
  - rewrite IH. intuition.
Qed.

Lemma put_sorted k (v : A) l : StronglySorted key_lt (map fst l) -> StronglySorted key_lt (map fst (key_put k v l)).
Proof.
  induction l as [|[k' v'] l IH]; cbn; intros H; [repeat constructor|].
  inversion H as [|? ? H1 H2]; subst. destruct (String.compare k k') eqn:E; cbn.
  - apply String.compare_eq_iff in E. subst. exact H.
  - constructor; [exact H|]. constructor; [exact E|]. eapply Forall_impl; [|exact H2].
    intros y Hy. eapply key_trans; [exact E|exact Hy].
  - constructor; [auto|]. apply Forall_forall. intros y Hy. apply put_keys in Hy.
    destruct Hy as [-> |Hy].
    + unfold key_lt. rewrite String.compare_antisym, E. reflexivity.
    + rewrite Forall_forall in H2. auto.
Qed.

Lemma in_put k (v : A) l x y : StronglySorted key_lt (map fst l) ->
  (In (x, y) (key_put k v l) <-> (x = k /\ y = v) \/ (x <> k /\ In (x, y) l)).
Proof.
  induction l as [|[k' v'] l IH]; cbn; intros H.
  - split; [intros [[=]|[]]; auto|intros [[-> ->]|[_ []]]; auto].
  - inversion H as [|? ? H1 H2]; subst. rewrite Forall_forall in H2.
    assert (N : In (x, y) l -> key_lt k' x) by (intros Hi; apply H2; now apply (in_map fst) in Hi).
    destruct (String.compare k k') eqn:E; cbn.
    + apply String.compare_eq_iff in E. subst k'. split.
      * intros [[=]|Hi]; [auto|]. right. split; [intros ->; eapply key_lt_irrefl; eauto|auto].
      * intros [[-> ->]|[Hn [[=]|Hi]]]; auto. congruence.
    + split.
      * intros [[= <- <-]|[[= <- <-]|Hi]]; auto.
        -- right. split; [intros ->; eapply key_lt_irrefl; eauto|auto].
        -- right. split; [intros ->; eapply key_lt_irrefl; eapply key_trans; eauto|auto].
      * intros [[-> ->]|[Hn [[= <- <-]|Hi]]]; auto.
    + rewrite (IH H1). assert (Hk : k' <> k).
      { intros ->. pose proof (String.compare_antisym k k) as Q. rewrite E in Q. discriminate. }
      split.
      * intros [[= <- <-]|[[-> ->]|[Hn Hi]]]; auto.
      * intros [[-> ->]|[Hn [[= <- <-]|Hi]]]; auto.
Qed.

Lemma in_find k (v : A) l : StronglySorted key_lt (map fst l) -> (key_find k l = Some v <-> In (k, v) l).
Proof.
  induction l as [|[k' v'] l IH]; cbn; intros H; [split; [discriminate|intros []]|].
  inversion H as [|? ? H1 H2]; subst. rewrite Forall_forall in H2.
  destruct (String.eqb_spec k k') as [->|Hn].
  - split; [intros [= ->]; auto|]. intros [[= ->]|Hi]; [reflexivity|].
    exfalso. apply (key_lt_irrefl k'). apply H2. now apply (in_map fst) in Hi.
  - rewrite (IH H1). split; auto. intros [[= <- _]|Hi]; [congruence|auto].
Qed.

Lemma find_none k l : key_find k l = None -> forall v : A, ~ In (k, v) l.
Proof.
  induction l as [|[k' v'] l IH]; cbn; [auto|]. destruct (String.eqb_spec k k') as [->|Hn]; [discriminate|].
  intros E v [[= <- _]|Hi]; [congruence|]. now apply (IH E v).
Qed.

Lemma in_erase k l x (y : A) : StronglySorted key_lt (map fst l) ->
  (In (x, y) (key_erase k l) <-> x <> k /\ In (x, y) l).
Proof.
  induction l as [|[k' v'] l IH]; cbn; intros H; [intuition|].
  inversion H as [|? ? H1 H2]; subst. rewrite Forall_forall in H2.
  destruct (String.eqb_spec k k') as [->|Hn]; cbn.
  - split.
    + intros Hi. split; [|auto]. intros ->. apply (key_lt_irrefl k'). apply H2. now apply (in_map fst) in Hi.
    + intros [Hx [[= <- _]|Hi]]; [congruence|auto].
  - rewrite (IH H1). split.
    + intros [[= <- <-]|[Hx Hi]]; auto.
    + intros [Hx [E|Hi]]; auto.
Qed.

Lemma erase_sorted k l : StronglySorted key_lt (map fst l) -> StronglySorted key_lt (map fst (key_erase k l)).
Proof.
  induction l as [|[k' v'] l IH]; cbn; intros H; [constructor|].
  inversion H as [|? ? H1 H2]; subst. destruct (String.eqb k k'); [exact H1|]. cbn. constructor; [auto|].
  rewrite Forall_forall in *. intros y Hy. apply H2. clear - Hy.
  induction l as [|[a b] l IH]; cbn in *; [auto|]. destruct (String.eqb k a); cbn in *; intuition.
Qed.
End Keys.

Lemma ordered_none : ordered no_tasks.
Proof. constructor; [constructor|constructor|intros ? ? []]. Qed.

Lemma ordered_parts s : ordered s ->
  StronglySorted key_lt (map fst (set_tasks s)) /\ StronglySorted key_lt (map fst (set_sets s)) /\
  forall k x, In (k, x) (set_sets s) -> ordered x.
Proof. intros H. inversion H; subst. cbn. auto. Qed.

Lemma ordered_of s : StronglySorted key_lt (map fst (set_tasks s)) -> StronglySorted key_lt (map fst (set_sets s)) ->
  (forall k x, In (k, x) (set_sets s) -> ordered x) -> ordered s.
Proof. destruct s. cbn. intros. now constructor. Qed.

Lemma holds_parts s p t : holds s p t <->
  (exists k, p = [k] /\ In (k, t) (set_tasks s)) \/
  (exists k x q, p = k :: q /\ In (k, x) (set_sets s) /\ holds x q t).
Proof.
  destruct s as [tasks sets]. cbn. split.
  - intros H. inversion H; subst; [left|right]; eauto 10.
  - intros [(k & -> & H)|(k & x & q & -> & H1 & H2)]; econstructor; eauto.
Qed.

Lemma none_holds p t : ~ holds no_tasks p t.
Proof. intros H. apply holds_parts in H. destruct H as [(? & _ & [])|(? & ? & ? & _ & [] & _)]. Qed.

Lemma at_ordered p : forall s, ordered s -> ordered (set_at s p).
Proof.
  induction p as [|k p IH]; intros s H; cbn; [exact H|].
  destruct (ordered_parts s H) as (_ & H2 & H3).
  destruct (key_find k (set_sets s)) as [x|] eqn:E; [|exact ordered_none].
  apply IH. apply (H3 k). now apply in_find.
Qed.

Lemma put_ordered p : forall s x, ordered s -> ordered x -> ordered (set_put s p x).
Proof.
  induction p as [|k p IH]; intros s x H Hx; cbn; [exact Hx|].
  destruct (ordered_parts s H) as (H1 & H2 & H3). apply ordered_of; cbn; [exact H1|now apply put_sorted|].
  intros k' y Hy. apply in_put in Hy; [|exact H2]. destruct Hy as [[_ ->]|[_ Hy]]; [|eauto].
  apply IH; [|exact Hx]. destruct (key_find k (set_sets s)) as [z|] eqn:E; [|exact ordered_none].
  apply (H3 k). now apply in_find.
Qed.

(** The tasks of a subset. *)
Lemma at_holds p : forall s r t, ordered s -> (holds (set_at s p) r t <-> r <> [] /\ holds s (p ++ r) t).
Proof.
  induction p as [|k p IH]; intros s r t H; cbn.
  - split; [|tauto]. intros Hh. split; [|exact Hh]. intros ->.
    destruct (holds_nonempty _ _ _ Hh) as (? & ? & [=]).
  - destruct (ordered_parts s H) as (H1 & H2 & H3).
    destruct (key_find k (set_sets s)) as [x|] eqn:E.
    + apply in_find in E; [|exact H2]. rewrite (IH x r t (H3 _ _ E)). split.
      * intros [Hr Hh]. split; [exact Hr|]. apply holds_parts. right. exists k, x, (p ++ r). auto.
      * intros [Hr Hh]. split; [exact Hr|]. apply holds_parts in Hh.
        destruct Hh as [(k' & E' & _)|(k' & y & q & E' & Hy & Hh)].
        -- inversion E'. destruct p, r; try discriminate; congruence.
        -- inversion E'; subst. assert (x = y); [|subst; exact Hh].
           apply (in_find k' x) in E; [|exact H2]. apply (in_find k' y) in Hy; [|exact H2]. congruence.
    + split; [intros Hh; destruct (none_holds _ _ Hh)|]. intros [Hr Hh]. exfalso. apply holds_parts in Hh.
      destruct Hh as [(k' & E' & _)|(k' & y & q & E' & Hy & _)].
      * inversion E'. destruct p, r; try discriminate; congruence.
      * inversion E'; subst. now apply (find_none _ _ E y).
Qed.

(** The tasks after a subset was replaced. *)
Lemma put_holds p : forall s x q t, ordered s ->
  (holds (set_put s p x) q t <->
   (exists r, q = p ++ r /\ holds x r t) \/ ((forall r, r <> [] -> q <> p ++ r) /\ holds s q t)).
Proof.
  induction p as [|k p IH]; intros s x q t H; cbn.
  - split.
    + intros Hh. left. eauto.
    + intros [(r & -> & Hh)|[N Hh]]; [exact Hh|]. exfalso.
      destruct (holds_nonempty _ _ _ Hh) as (c & q' & ->). apply (N (c :: q')); [discriminate|reflexivity].
  - destruct (ordered_parts s H) as (H1 & H2 & H3).
    set (sub := match key_find k (set_sets s) with Some y => y | None => no_tasks end).
    assert (Ho : ordered sub).
    { unfold sub. destruct (key_find k (set_sets s)) as [z|] eqn:E; [|exact ordered_none].
      apply (H3 k). now apply in_find. }
    assert (Hsub : forall q t, holds sub q t <-> exists y, In (k, y) (set_sets s) /\ holds y q t).
    { intros q' t'. unfold sub. destruct (key_find k (set_sets s)) as [z|] eqn:E.
      - split; [intros Hh; exists z; split; [now apply in_find|exact Hh]|].
        intros (y & Hy & Hh). apply (in_find k y) in Hy; [|exact H2]. replace z with y by congruence. exact Hh.
      - split; [intros Hh; destruct (none_holds _ _ Hh)|]. intros (y & Hy & _). exfalso. now apply (find_none _ _ E y). }
    rewrite holds_parts. cbn. split.
    + intros [(k' & -> & Hi)|(k' & y & q' & -> & Hi & Hh)].
      * right. split; [|apply holds_parts; left; eauto].
        intros r Hr E. inversion E. destruct p, r; try discriminate; congruence.
      * apply in_put in Hi; [|exact H2]. destruct Hi as [[-> ->]|[Hn Hi]].
        -- apply (IH sub x q' t Ho) in Hh. destruct Hh as [(r & -> & Hh)|[N Hh]]; [left; eauto|].
           right. split; [intros r Hr E; inversion E; eapply N; eauto|].
           apply Hsub in Hh. destruct Hh as (y' & Hy & Hh). apply holds_parts. right. exists k, y', q'. auto.
        -- right. split; [intros r Hr E; inversion E; congruence|]. apply holds_parts. right. exists k', y, q'. auto.
    + intros [(r & -> & Hh)|[N Hh]].
      * right. exists k, (set_put sub p x), (p ++ r). split; [reflexivity|]. split; [apply in_put; auto|].
        apply IH; [exact Ho|]. left. eauto.
      * apply holds_parts in Hh. destruct Hh as [(k' & -> & Hi)|(k' & y & q' & -> & Hi & Hh)]; [left; eauto|].
        right. destruct (string_dec k' k) as [->|Hn].
        -- exists k, (set_put sub p x), q'. split; [reflexivity|]. split; [apply in_put; auto|].
           apply IH; [exact Ho|]. right. split; [intros r Hr ->; eapply N; eauto|]. apply Hsub. eauto.
        -- exists k', y, q'. split; [reflexivity|]. split; [apply in_put; auto|exact Hh].
Qed.

(** * What each operation does to the places of tasks *)
Lemma own_nonempty s p t : holds s p t -> p <> [].
Proof. intros H ->. destruct (holds_nonempty _ _ _ H) as (? & ? & [=]). Qed.

Lemma in_without t l gone : In t (without l gone) <-> In t l /\ ~ In t gone.
Proof.
  unfold without. rewrite filter_In. split; intros [H1 H2]; (split; [exact H1|]).
  - intros HI. apply mem_In in HI. rewrite HI in H2. discriminate.
  - destruct (mem t gone) eqn:E; [|reflexivity]. apply mem_In in E. contradiction.
Qed.

Lemma upd_cases {A} (f : nat -> A) n v x : upd f n v x = if x =? n then v else f x.
Proof. reflexivity. Qed.

Lemma extends_dec (p q : list string) : (exists r, r <> [] /\ q = p ++ r) \/ forall r, r <> [] -> q <> p ++ r.
Proof.
  revert q. induction p as [|k p IH]; intros [|x q].
  - right. intros r Hr E. cbn in E. congruence.
  - left. exists (x :: q). split; [discriminate|reflexivity].
  - right. intros r Hr E. discriminate.
  - destruct (string_dec x k) as [->|Hn]; [|right; intros r Hr E; inversion E; congruence].
    destruct (IH q) as [(r & Hr & ->)|N]; [left; exists r; auto|]. right. intros r Hr E. inversion E. now apply (N r).
Qed.

Section Step.
Variable a : assembly.
Hypothesis Hord : forall v, ordered (a_sets a v).

Lemma found_task v p name u :
  key_find name (set_tasks (set_at (a_sets a v) p)) = Some u <-> holds (a_sets a v) (p ++ [name]) u.
Proof.
  pose proof (at_ordered p _ (Hord v)) as Ho. destruct (ordered_parts _ Ho) as (H1 & H2 & H3).
  rewrite in_find by exact H1. split.
  - intros Hi. apply (at_holds p _ [name] u (Hord v)). apply holds_parts. left. eauto.
  - intros Hh. assert (Hh' : holds (set_at (a_sets a v) p) [name] u).
    { apply at_holds; [apply Hord|]. split; [discriminate|exact Hh]. }
    apply holds_parts in Hh'. destruct Hh' as [(k & [= <-] & Hi)|(k & x & q & [= _ <-] & _ & Hx)]; [exact Hi|].
    exfalso. now apply own_nonempty in Hx.
Qed.

Lemma put_places v p name t w q u :
  (forall x, ~ holds (a_sets a v) (p ++ [name]) x) ->
  (holds (upd (a_sets a) v (set_put (a_sets a v) p (TaskSet (key_put name t (set_tasks (set_at (a_sets a v) p)))
                                                           (set_sets (set_at (a_sets a v) p)))) w) q u <->
   (w = v /\ q = p ++ [name] /\ u = t) \/ holds (a_sets a w) q u).
Proof.
  intros N. rewrite upd_cases. destruct (Nat.eqb_spec w v) as [->|Hn]; [|intuition].
  pose proof (at_ordered p _ (Hord v)) as Ho. destruct (ordered_parts _ Ho) as (H1 & H2 & H3).
  rewrite put_holds by apply Hord. split.
  - intros [(r & -> & Hh)|[_ Hh]]; [|auto]. apply holds_parts in Hh. cbn in Hh.
    destruct Hh as [(k & -> & Hi)|(k & x & q' & -> & Hi & Hx)].
    + apply in_put in Hi; [|exact H1]. destruct Hi as [[-> ->]|[Hn Hi]]; [auto|]. right.
      apply (at_holds p _ [k] u (Hord v)). apply holds_parts. left. eauto.
    + right. apply (at_holds p _ (k :: q') u (Hord v)). apply holds_parts. right. exists k, x, q'. auto.
  - intros [(_ & -> & ->)|Hh].
    + left. exists [name]. split; [reflexivity|]. apply holds_parts. cbn. left. exists name. split; [reflexivity|].
      apply in_put; auto.
    + pose proof (extends_dec p q) as D.
      destruct D as [(r & Hr & ->)|D]; [|right; auto]. left. exists r. split; [reflexivity|].
      assert (Hh' : holds (set_at (a_sets a v) p) r u) by (apply at_holds; [apply Hord|auto]).
      apply holds_parts in Hh'. apply holds_parts. cbn. destruct Hh' as [(k & -> & Hi)|(k & x & q' & -> & Hi & Hx)].
      * left. exists k. split; [reflexivity|]. apply in_put; [exact H1|]. right. split; [|exact Hi].
        intros ->. now apply (N u).
      * right. exists k, x, q'. auto.
Qed.

Lemma move_places v p w q x q' u : v <> w ->
  (holds (upd (upd (a_sets a) w (set_put (a_sets a w) q no_tasks)) v
              (set_put (a_sets a v) p (set_at (a_sets a w) q)) x) q' u <->
   (x = v /\ exists r, r <> [] /\ q' = p ++ r /\ holds (a_sets a w) (q ++ r) u) \/
   (holds (a_sets a x) q' u /\ (x = v -> forall r, r <> [] -> q' <> p ++ r) /\
    (x = w -> forall r, r <> [] -> q' <> q ++ r))).
Proof.
  intros Hvw. rewrite !upd_cases. destruct (Nat.eqb_spec x v) as [->|Hn].
  - rewrite put_holds by apply Hord. split.
    + intros [(r & -> & Hh)|[N Hh]].
      * apply at_holds in Hh; [|apply Hord]. left. split; [reflexivity|]. exists r. tauto.
      * right. split; [exact Hh|]. split; [auto|]. congruence.
    + intros [(_ & r & Hr & -> & Hh)|(Hh & N & _)]; [|auto].
      left. exists r. split; [reflexivity|]. apply at_holds; [apply Hord|auto].
  - destruct (Nat.eqb_spec x w) as [->|Hn'].
    + rewrite put_holds by apply Hord. split.
      * intros [(r & _ & Hh)|[N Hh]]; [destruct (none_holds _ _ Hh)|]. right. split; [exact Hh|]. split; [congruence|auto].
      * intros [[-> _]|(Hh & _ & N)]; [congruence|]. auto.
    + split; [intros Hh; right; split; [exact Hh|split; congruence]|]. intros [[-> _]|(Hh & _)]; [congruence|exact Hh].
Qed.

Lemma erase_places v p name w q u :
  (holds (upd (a_sets a) v (set_put (a_sets a v) p (TaskSet (key_erase name (set_tasks (set_at (a_sets a v) p)))
                                                           (set_sets (set_at (a_sets a v) p)))) w) q u <->
   holds (a_sets a w) q u /\ ~ (w = v /\ q = p ++ [name])).
Proof.
  rewrite upd_cases. destruct (Nat.eqb_spec w v) as [->|Hn]; [|intuition].
  pose proof (at_ordered p _ (Hord v)) as Ho. destruct (ordered_parts _ Ho) as (H1 & H2 & H3).
  rewrite put_holds by apply Hord. split.
  - intros [(r & -> & Hh)|[N Hh]].
    + apply holds_parts in Hh. cbn in Hh. destruct Hh as [(k & -> & Hi)|(k & x & q' & -> & Hi & Hx)].
      * apply in_erase in Hi; [|exact H1]. destruct Hi as [Hk Hi]. split.
        -- apply (at_holds p _ [k] u (Hord v)). apply holds_parts. left. eauto.
        -- intros [_ E]. apply app_inv_head in E. congruence.
      * split.
        -- apply (at_holds p _ (k :: q') u (Hord v)). apply holds_parts. right. exists k, x, q'. auto.
        -- intros [_ E]. apply app_inv_head in E. inversion E; subst. now apply own_nonempty in Hx.
    + split; [exact Hh|]. intros [_ ->]. now apply (N [name]).
  - intros [Hh N]. destruct (extends_dec p q) as [(r & Hr & ->)|D]; [|auto]. left. exists r. split; [reflexivity|].
    assert (Hh' : holds (set_at (a_sets a v) p) r u) by (apply at_holds; [apply Hord|auto]).
    apply holds_parts in Hh'. apply holds_parts. cbn. destruct Hh' as [(k & -> & Hi)|(k & x & q' & -> & Hi & Hx)].
    + left. exists k. split; [reflexivity|]. apply in_erase; [exact H1|]. split; [|exact Hi]. intros ->. apply N. auto.
    + right. exists k, x, q'. auto.
Qed.

Lemma erase_set_places v p name w q u :
  (holds (upd (a_sets a) v (set_put (a_sets a v) p (TaskSet (set_tasks (set_at (a_sets a v) p))
                                                      (key_erase name (set_sets (set_at (a_sets a v) p))))) w) q u <->
   holds (a_sets a w) q u /\ ~ (w = v /\ exists r, r <> [] /\ q = (p ++ [name]) ++ r)).
Proof.
  rewrite upd_cases. destruct (Nat.eqb_spec w v) as [->|Hn]; [|intuition].
  pose proof (at_ordered p _ (Hord v)) as Ho. destruct (ordered_parts _ Ho) as (H1 & H2 & H3).
  rewrite put_holds by apply Hord. split.
  - intros [(r & -> & Hh)|[N Hh]].
    + apply holds_parts in Hh. cbn in Hh. destruct Hh as [(k & -> & Hi)|(k & x & q' & -> & Hi & Hx)].
      * split.
        -- apply (at_holds p _ [k] u (Hord v)). apply holds_parts. left. eauto.
        -- intros [_ (r & Hr & E)]. rewrite <- app_assoc in E. apply app_inv_head in E. cbn in E. congruence.
      * apply in_erase in Hi; [|exact H2]. destruct Hi as [Hk Hi]. split.
        -- apply (at_holds p _ (k :: q') u (Hord v)). apply holds_parts. right. exists k, x, q'. auto.
        -- intros [_ (r & Hr & E)]. rewrite <- app_assoc in E. apply app_inv_head in E. cbn in E. congruence.
    + split; [exact Hh|]. intros [_ (r & Hr & ->)]. apply (N ([name] ++ r)); [discriminate|]. now rewrite app_assoc.
  - intros [Hh N]. destruct (extends_dec p q) as [(r & Hr & ->)|D]; [|auto]. left. exists r. split; [reflexivity|].
    assert (Hh' : holds (set_at (a_sets a v) p) r u) by (apply at_holds; [apply Hord|auto]).
    apply holds_parts in Hh'. apply holds_parts. cbn. destruct Hh' as [(k & -> & Hi)|(k & x & q' & -> & Hi & Hx)].
    + left. eauto.
    + right. exists k, x, q'. split; [reflexivity|]. split; [|exact Hx]. apply in_erase; [exact H2|]. split; [|exact Hi].
      intros ->. apply N. split; [reflexivity|]. exists q'. split; [now apply own_nonempty in Hx|]. now rewrite <- app_assoc.
Qed.

Lemma erase_ordered v p f g :
  (forall l, StronglySorted key_lt (map fst l) -> StronglySorted key_lt (map fst (f l))) ->
  (forall l : list (string * task_set), StronglySorted key_lt (map fst l) -> StronglySorted key_lt (map fst (g l))) ->
  (forall l k (x : task_set), In (k, x) (g l) -> In (k, x) l) ->
  ordered (set_put (a_sets a v) p (TaskSet (f (set_tasks (set_at (a_sets a v) p))) (g (set_sets (set_at (a_sets a v) p))))).
Proof.
  intros Hf Hg Hi. apply put_ordered; [apply Hord|].
  destruct (ordered_parts _ (at_ordered p _ (Hord v))) as (H1 & H2 & H3).
  constructor; auto. intros k x Hx. apply Hi in Hx. eauto.
Qed.
End Step.

Lemma help_dom h st t ts : st_dom (help h st t ts) = st_dom st.
Proof.
  assert (F : forall (f : store -> string * tid -> store) l st, (forall st x, st_dom (f st x) = st_dom st) ->
    st_dom (fold_left f l st) = st_dom st).
  { intros f l. induction l as [|x l IH]; intros st0 H; cbn; [reflexivity|]. rewrite IH by exact H. apply H. }
  destruct h; cbn; unfold for_each_add_dep, add_dep_to_each, run_each_after, run_after_all_of, invalidated_by_all_of;
    apply F; intros s0 x; match goal with |- context [if ?b then _ else _] => destruct b end; reflexivity.
Qed.

(** * Every program *)
Record sound (a : assembly) : Prop := {
  so_ord : forall v, ordered (a_sets a v);
  so_own : forall v p w q t, holds (a_sets a v) p t -> holds (a_sets a w) q t -> v = w /\ p = q;
  so_live : forall v p t, holds (a_sets a v) p t -> In t (st_dom (a_store a));
  so_alone : forall t, In t (a_alone a) -> In t (st_dom (a_store a)) /\ forall v p, ~ holds (a_sets a v) p t }.

Lemma sound0 x : sound (assembly0 x).
Proof.
  constructor; cbn.
  - intros _. exact ordered_none.
  - intros v p w q t H. destruct (none_holds _ _ H).
  - intros v p t H. destruct (none_holds _ _ H).
  - intros t [].
Qed.

Lemma gone_at a v p t : (forall v, ordered (a_sets a v)) ->
  (In t (map snd (for_each_task (set_at (a_sets a v) p))) <-> exists r, r <> [] /\ holds (a_sets a v) (p ++ r) t).
Proof.
  intros Ho. change (In t (visited (set_at (a_sets a v) p)) <-> exists r, r <> [] /\ holds (a_sets a v) (p ++ r) t).
  rewrite visited_holds. split; intros (r & H); exists r; now apply at_holds.
Qed.

Lemma fst_erase_in {A} k (l : list (string * A)) x : In x (key_erase k l) -> In x l.
Proof.
  induction l as [|[k' v] l IH]; cbn; [auto|]. destruct (String.eqb k k'); cbn; intuition.
Qed.

Lemma upd_ordered (f : nat -> task_set) v x : (forall w, ordered (f w)) -> ordered x -> forall w, ordered (upd f v x w).
Proof. intros H Hx w. rewrite upd_cases. destruct (w =? v); auto. Qed.

Lemma step_sound a o a' : sound a -> assemble a o = Some a' -> sound a'.
Proof.
  intros [Ho Hw Hl Ha] E. destruct o as [v p name t x|v p w q|v p name|v p name|t x|t|t x|h t v p]; cbn in E.
  - destruct (key_find name (set_tasks (set_at (a_sets a v) p))) as [u|] eqn:F.
    + inversion E; subst a'; clear E. constructor; cbn; auto.
    + destruct (mem t (st_dom (a_store a))) eqn:M; [discriminate|]. inversion E; subst a'; clear E.
      assert (N : forall y, ~ holds (a_sets a v) (p ++ [name]) y).
      { intros y Hy. apply (found_task a Ho) in Hy. congruence. }
      apply mem_false in M. constructor; cbn.
      * apply upd_ordered; [exact Ho|]. apply (erase_ordered a Ho v p (key_put name t) (fun l => l)); auto.
        intros. now apply put_sorted.
      * intros v1 p1 v2 p2 u H1 H2. apply (put_places a Ho) in H1; [|exact N]. apply (put_places a Ho) in H2; [|exact N].
        destruct H1 as [(-> & -> & ->)|H1], H2 as [(-> & -> & E2)|H2]; auto.
        -- exfalso. apply M. eauto.
        -- subst. exfalso. apply M. eauto.
        -- eauto.
      * intros v1 p1 u H1. apply (put_places a Ho) in H1; [|exact N]. destruct H1 as [(-> & -> & ->)|H1]; [auto|right; eauto].
      * intros u Hu. destruct (Ha u Hu) as [H1 H2]. split; [auto|]. intros v1 p1 H3.
        apply (put_places a Ho) in H3; [|exact N]. destruct H3 as [(-> & -> & ->)|H3]; [auto|]. eapply H2; eassumption.
  - destruct (Nat.eqb_spec v w) as [|Hn]; [discriminate|]. inversion E; subst a'; clear E. constructor; cbn.
    + apply upd_ordered; [apply upd_ordered; [exact Ho|]|].
      * apply put_ordered; [apply Ho|exact ordered_none].
      * apply put_ordered; [apply Ho|apply at_ordered, Ho].
    + intros v1 p1 v2 p2 u H1 H2. apply (move_places a Ho) in H1; [|exact Hn]. apply (move_places a Ho) in H2; [|exact Hn].
      destruct H1 as [(-> & r1 & Hr1 & -> & H1)|(H1 & N1 & N1')], H2 as [(-> & r2 & Hr2 & -> & H2)|(H2 & N2 & N2')].
      * destruct (Hw _ _ _ _ _ H1 H2) as [_ E]. apply app_inv_head in E. subst. auto.
      * destruct (Hw _ _ _ _ _ H1 H2) as [E1 E2]. subst. exfalso. now apply (N2' eq_refl r1).
      * destruct (Hw _ _ _ _ _ H1 H2) as [E1 E2]. subst. exfalso. now apply (N1' eq_refl r2).
      * eauto.
    + intros v1 p1 u H1. apply (move_places a Ho) in H1; [|exact Hn]. apply in_without.
      destruct H1 as [(-> & r1 & Hr1 & -> & H1)|(H1 & N1 & N1')].
      * split; [eauto|]. intros HI. apply gone_at in HI; [|exact Ho]. destruct HI as (r & Hr & HI).
        destruct (Hw _ _ _ _ _ H1 HI). congruence.
      * split; [eauto|]. intros HI. apply gone_at in HI; [|exact Ho]. destruct HI as (r & Hr & HI).
        destruct (Hw _ _ _ _ _ H1 HI) as [E1 E2]. subst. now apply (N1 eq_refl r).
    + intros u Hu. destruct (Ha u Hu) as [H1 H2]. split.
      * apply in_without. split; [exact H1|]. intros HI. apply gone_at in HI; [|exact Ho].
        destruct HI as (r & Hr & HI). eapply H2; eassumption.
      * intros v1 p1 H3. apply (move_places a Ho) in H3; [|exact Hn].
        destruct H3 as [(-> & r1 & Hr1 & -> & H3)|(H3 & _)]; eapply H2; eassumption.
  - destruct (key_find name (set_tasks (set_at (a_sets a v) p))) as [u|] eqn:F; [|inversion E; subst; constructor; auto].
    apply (found_task a Ho) in F. inversion E; subst a'; clear E. constructor; cbn.
    + apply upd_ordered; [exact Ho|]. apply (erase_ordered a Ho v p (key_erase name) (fun l => l)); auto.
      intros. now apply erase_sorted.
    + intros v1 p1 v2 p2 y H1 H2. apply (erase_places a Ho) in H1. apply (erase_places a Ho) in H2.
      destruct H1, H2. eauto.
    + intros v1 p1 y H1. apply (erase_places a Ho) in H1. destruct H1 as [H1 N]. apply in_without. split; [eauto|].
      intros [E|[]]. subst. destruct (Hw _ _ _ _ _ F H1). subst. apply N. auto.
    + intros y Hy. destruct (Ha y Hy) as [H1 H2]. split.
      * apply in_without. split; [exact H1|]. intros [E|[]]. subst. eapply H2; eassumption.
      * intros v1 p1 H3. apply (erase_places a Ho) in H3. destruct H3 as [H3 _]. eapply H2; eassumption.
  - destruct (key_find name (set_sets (set_at (a_sets a v) p))) as [s|] eqn:F; [|inversion E; subst; constructor; auto].
    inversion E; subst a'; clear E.
    assert (G : forall t, In t (map snd (for_each_task s)) <-> exists r, r <> [] /\ holds (a_sets a v) ((p ++ [name]) ++ r) t).
    { intros t. rewrite <- (gone_at a v (p ++ [name]) t Ho). replace (set_at (a_sets a v) (p ++ [name])) with s; [reflexivity|].
      clear - F. revert F. generalize (a_sets a v). induction p as [|k p IH]; intros x F; cbn in *.
      - now rewrite F.
      - destruct (key_find k (set_sets x)); [now apply IH|]. discriminate. }
    constructor; cbn.
    + apply upd_ordered; [exact Ho|]. apply (erase_ordered a Ho v p (fun l => l) (key_erase name)); auto.
      * intros. now apply erase_sorted.
      * intros l k x. apply fst_erase_in.
    + intros v1 p1 v2 p2 y H1 H2. apply (erase_set_places a Ho) in H1. apply (erase_set_places a Ho) in H2.
      destruct H1, H2. eauto.
    + intros v1 p1 y H1. apply (erase_set_places a Ho) in H1. destruct H1 as [H1 N]. apply in_without. split; [eauto|].
      intros HI. apply G in HI. destruct HI as (r & Hr & HI). destruct (Hw _ _ _ _ _ HI H1) as [E1 E2]. subst. apply N. eauto.
    + intros y Hy. destruct (Ha y Hy) as [H1 H2]. split.
      * apply in_without. split; [exact H1|]. intros HI. apply G in HI. destruct HI as (r & Hr & HI). eapply H2; eassumption.
      * intros v1 p1 H3. apply (erase_set_places a Ho) in H3. destruct H3 as [H3 _]. eapply H2; eassumption.
  - destruct (mem t (st_dom (a_store a))) eqn:M; [discriminate|]. apply mem_false in M. inversion E; subst a'; clear E.
    constructor; cbn; auto.
    + intros v p u H. right. eauto.
    + intros u [<-|Hu].
      * split; [auto|]. intros v p H. apply M. eauto.
      * destruct (Ha u Hu). auto.
  - destruct (mem t (a_alone a)) eqn:M; [|discriminate]. apply mem_In in M. inversion E; subst a'; clear E.
    constructor; cbn; auto.
    + intros v p u H. apply in_without. split; [eauto|]. intros [->|[]]. destruct (Ha u M) as [_ H2]. eapply H2; eassumption.
    + intros u Hu. apply in_without in Hu. destruct Hu as [Hu N]. destruct (Ha u Hu) as [H1 H2]. split; [|exact H2].
      apply in_without. auto.
  - destruct (mem t (st_dom (a_store a))) eqn:M; [|discriminate]. inversion E; subst a'; clear E. constructor; cbn; auto.
  - destruct (mem t (st_dom (a_store a))) eqn:M; [|discriminate]. inversion E; subst a'; clear E.
    constructor; cbn; auto; rewrite help_dom; auto.
Qed.

Lemma all_sound os : forall a a', sound a -> assemble_all a os = Some a' -> sound a'.
Proof.
  induction os as [|o os IH]; intros a a' H E; cbn in E; [congruence|].
  destruct (assemble a o) as [b|] eqn:F; [|discriminate]. eapply IH; [|exact E]. eapply step_sound; eassumption.
Qed.

Theorem assembled_sets : forall x os a, assemble_all (assembly0 x) os = Some a ->
  (forall v, ordered (a_sets a v)) /\
  (forall v p w q t, holds (a_sets a v) p t -> holds (a_sets a w) q t -> v = w /\ p = q) /\
  (forall v p t, holds (a_sets a v) p t -> In t (st_dom (a_store a))).
Proof. intros x os a E. destruct (all_sound os _ _ (sound0 x) E). auto. Qed.

(** * Programs that only build *)
Definition closed (st : store) : Prop := forall t u, In t (st_dom st) -> depends_on st t u -> In u (st_dom st).

Lemma help_closed h st t ts : In t (st_dom st) -> (forall p u, holds ts p u -> In u (st_dom st)) ->
  closed st -> closed (help h st t ts).
Proof.
  intros Ht Hts.
  assert (F : forall (f : store -> string * tid -> store) l st0, st_dom st0 = st_dom st ->
    (forall st1 x, In x l -> st_dom st1 = st_dom st -> st_dom (f st1 x) = st_dom st) ->
    (forall st1 x, In x l -> st_dom st1 = st_dom st -> closed st1 -> closed (f st1 x)) ->
    closed st0 -> closed (fold_left f l st0)).
  { intros f l. induction l as [|x l IH]; intros st0 E H1 H2 H; cbn; [exact H|].
    apply IH; auto; [apply H1; cbn; auto| | |apply H2; cbn; auto]; intros; [apply H1|apply H2]; cbn; auto. }
  assert (V : forall x, In x (for_each_task ts) -> In (snd x) (st_dom st)).
  { intros x Hx. apply (in_map snd) in Hx. change (In (snd x) (visited ts)) in Hx. apply visited_holds in Hx.
    destruct Hx as [p Hx]. eauto. }
  assert (G : forall st1 (y d : tid) (f : task -> task), st_dom st1 = st_dom st -> In d (st_dom st) ->
    (forall x u, In u (t_depends_on (f x)) -> In u (t_depends_on x) \/ u = d) -> closed st1 ->
    closed (store_set st1 y (f (st_get st1 y)))).
  { intros st1 y d f Ed Hd Hf H z u Hz Hu. unfold depends_on in Hu. cbn in *. rewrite upd_cases in Hu.
    destruct (Nat.eqb_spec z y) as [->|Hn].
    - apply Hf in Hu. destruct Hu as [Hu| ->]; [|congruence]. eapply H; eassumption.
    - eapply H; eassumption. }
  intros H. destruct h; cbn; unfold for_each_add_dep, add_dep_to_each, run_each_after, run_after_all_of, invalidated_by_all_of;
    (apply F; [reflexivity| | |exact H]; intros st1 x Hx E; [|intros H1];
      match goal with |- context [if ?b then _ else _] => destruct b end; cbn; auto).
  - apply (G st1 (snd x) t (add_depends_on t)); auto. cbn. intros y u Hu. apply in_app_iff in Hu. cbn in Hu. intuition.
  - apply (G st1 t (snd x) (add_depends_on (snd x))); auto. cbn. intros y u Hu. apply in_app_iff in Hu. cbn in Hu. intuition.
  - apply (G st1 (snd x) t (add_run_after t)); auto.
  - apply (G st1 t (snd x) (add_run_after (snd x))); auto.
  - apply (G st1 t (snd x) (add_invalidated_by (snd x))); auto.
Qed.

Lemma set_closed st t x : closed st -> (forall u, In u (t_depends_on x) -> In u (st_dom st)) -> closed (store_set st t x).
Proof.
  intros H Hx y u Hy Hu. unfold depends_on in Hu. cbn in *. rewrite upd_cases in Hu.
  destruct (Nat.eqb_spec y t); [auto|]. eapply H; eassumption.
Qed.
Lemma create_closed st t x : closed st -> (forall u, In u (t_depends_on x) -> In u (st_dom st)) -> closed (create st t x).
Proof.
  intros H Hx y u Hy Hu. unfold depends_on in Hu. cbn in *. rewrite upd_cases in Hu. right.
  destruct (Nat.eqb_spec y t) as [->|Hn]; [auto|]. destruct Hy as [E|Hy]; [congruence|]. eapply H; eassumption.
Qed.

Lemma step_closed a o a' : sound a -> builds a o -> assemble a o = Some a' -> closed (a_store a) -> closed (a_store a').
Proof.
  intros [Ho Hw Hl Ha] B E H. destruct o as [v p name t x|v p w q|v p name|v p name|t x|t|t x|h t v p]; cbn in E, B.
  - destruct (key_find name (set_tasks (set_at (a_sets a v) p))) as [u|] eqn:F.
    + inversion E; subst; cbn. now apply set_closed.
    + destruct (mem t (st_dom (a_store a))); [discriminate|]. inversion E; subst; cbn. now apply create_closed.
  - destruct (v =? w) eqn:Evw; [discriminate|]. inversion E; subst; cbn. intros t u Ht Hu. cbn in *.
    apply in_without in Ht. destruct Ht as [Ht _]. apply in_without. split; [eapply H; eassumption|].
    intros HI. apply gone_at in HI; [|exact Ho]. destruct HI as (r & _ & HI). eapply B; eassumption.
  - destruct B.
  - destruct B.
  - destruct (mem t (st_dom (a_store a))); [discriminate|]. inversion E; subst; cbn. now apply create_closed.
  - destruct B.
  - destruct (mem t (st_dom (a_store a))); [|discriminate]. inversion E; subst; cbn. now apply set_closed.
  - destruct (mem t (st_dom (a_store a))) eqn:M; [|discriminate]. apply mem_In in M. inversion E; subst; cbn.
    apply help_closed; auto. intros q u Hq. apply at_holds in Hq; [|apply Ho]. destruct Hq. eauto.
Qed.

Lemma builds_all a os a' : only_builds a os a' -> assemble_all a os = Some a'.
Proof. induction 1 as [|a o a' os a'' B E H IH]; cbn; [reflexivity|]. now rewrite E. Qed.

Lemma builds_closed a os a' : only_builds a os a' -> sound a -> closed (a_store a) -> sound a' /\ closed (a_store a').
Proof.
  induction 1 as [|a o a' os a'' B E H IH]; intros Hs Hc; [auto|].
  apply IH; [eapply step_sound|eapply step_closed]; eassumption.
Qed.

Lemma closed_selected st ts filt : closed st -> (forall p t, holds ts p t -> In t (st_dom st)) -> live st (selected st ts filt).
Proof.
  intros Hc Hl t (p & r & Hp & _ & H). apply Hl in Hp. apply clos_rt_rt1n in H.
  induction H as [|r y t Hr H IH]; [exact Hp|]. apply IH. eapply Hc; eassumption.
Qed.

Theorem built_executable : forall x os a v threads filt iv addr ord1 ord2,
  only_builds (assembly0 x) os a -> some_order ord1 -> some_order ord2 ->
  fresh_nodes dag0 addr (selected (a_store a) (a_sets a v) filt) ->
  exists c, exec_set (a_store a) (a_sets a v) threads filt iv addr ord1 ord2 = Built c /\
            execution_of (a_store a) (a_sets a v) filt iv addr c.
Proof.
  intros x os a v threads filt iv addr ord1 ord2 HB H1 H2 HF.
  destruct (builds_closed _ _ _ HB (sound0 x)) as [[Ho Hw Hl _] Hc]; [intros t u []|].
  assert (HL : live (a_store a) (selected (a_store a) (a_sets a v) filt)) by (apply closed_selected; eauto).
  destruct (proj2 (insert_set_defined dag0 (a_store a) (a_sets a v) filt addr ord1 ord2 H1 H2) HL) as [[g n] E].
  exists (Config g threads (st_get (a_store a)) (fun n => iv (node_task g n))).
  assert (EX : exec_set (a_store a) (a_sets a v) threads filt iv addr ord1 ord2 =
    Built (Config g threads (st_get (a_store a)) (fun n => iv (node_task g n)))) by (unfold exec_set; now rewrite E).
  split; [exact EX|]. exists threads, ord1, ord2. split; [exact H1|]. split; [exact H2|].
  split; [apply Ho|]. split; [intros p q t Hp Hq; now apply (Hw v p v q t)|]. split; [exact HF|exact EX].
Qed.

(** * Where a task goes *)
Theorem task_stays : forall x os a o a' v p t,
  assemble_all (assembly0 x) os = Some a -> builds a o -> assemble a o = Some a' ->
  holds (a_sets a v) p t ->
  exists w q, moved o v p w q /\ holds (a_sets a' w) q t.
Proof.
  intros x os a o a' v p t E0 B E Hh. destruct (all_sound os _ _ (sound0 x) E0) as [Ho Hw Hl Ha].
  destruct o as [v1 p1 name u y|v1 p1 w1 q1|v1 p1 name|v1 p1 name|u y|u|u y|h u v1 p1]; cbn in E, B; try tauto; cbn [moved].
  - exists v, p. split; [auto|]. destruct (key_find name (set_tasks (set_at (a_sets a v1) p1))) as [z|] eqn:F.
    + inversion E; subst. exact Hh.
    + destruct (mem u (st_dom (a_store a))); [discriminate|]. inversion E; subst; cbn.
      apply (put_places a Ho); [|auto]. intros z Hz. apply (found_task a Ho) in Hz. congruence.
  - destruct (Nat.eqb_spec v1 w1) as [|Hn]; [discriminate|]. inversion E; subst; cbn. clear E.
    destruct (extends_dec q1 p) as [(r & Hr & ->)|D].
    + destruct (Nat.eq_dec v w1) as [->|Hv].
      * exists v1, (p1 ++ r). split; [left; exists r; auto|]. apply (move_places a Ho); [exact Hn|].
        left. split; [reflexivity|]. exists r. auto.
      * exists v, (q1 ++ r). split; [right; auto|]. apply (move_places a Ho); [exact Hn|]. right. split; [exact Hh|].
        split; [|congruence]. intros -> r' Hr' Eq. rewrite Eq in Hh. now apply (B r' t).
    + exists v, p. split; [right; auto|]. apply (move_places a Ho); [exact Hn|]. right. split; [exact Hh|].
      split; [|auto]. intros -> r' Hr' Eq. rewrite Eq in Hh. now apply (B r' t).
  - exists v, p. destruct (mem u (st_dom (a_store a))); [discriminate|]. inversion E; subst; auto.
  - exists v, p. destruct (mem u (st_dom (a_store a))); [|discriminate]. inversion E; subst; auto.
  - exists v, p. destruct (mem u (st_dom (a_store a))); [|discriminate]. inversion E; subst; auto.
Qed.

Theorem task_content : forall x os a o a' t,
  assemble_all (assembly0 x) os = Some a -> assemble a o = Some a' -> In t (st_dom (a_store a)) ->
  match o with
  | APut v p name _ y => st_get (a_store a') t = st_get (a_store a) t \/ (holds (a_sets a v) (p ++ [name]) t /\ st_get (a_store a') t = y)
  | AChange u y => st_get (a_store a') t = if t =? u then y else st_get (a_store a) t
  | AHelp h u v p => a_store a' = help h (a_store a) u (set_at (a_sets a v) p)
  | _ => st_get (a_store a') t = st_get (a_store a) t
  end.
Proof.
  intros x os a o a' t E0 E Ht. destruct (all_sound os _ _ (sound0 x) E0) as [Ho Hw Hl Ha].
  destruct o as [v1 p1 name u y|v1 p1 w1 q1|v1 p1 name|v1 p1 name|u y|u|u y|h u v1 p1]; cbn in E.
  - destruct (key_find name (set_tasks (set_at (a_sets a v1) p1))) as [z|] eqn:F.
    + apply (found_task a Ho) in F. inversion E; subst; cbn. rewrite upd_cases.
      destruct (Nat.eqb_spec t z) as [->|Hn]; auto.
    + destruct (mem u (st_dom (a_store a))) eqn:M; [discriminate|]. apply mem_false in M. inversion E; subst; cbn.
      left. rewrite upd_cases. destruct (Nat.eqb_spec t u) as [->|]; [contradiction|reflexivity].
  - destruct (v1 =? w1); [discriminate|]. inversion E; reflexivity.
  - destruct (key_find name (set_tasks (set_at (a_sets a v1) p1))); inversion E; reflexivity.
  - destruct (key_find name (set_sets (set_at (a_sets a v1) p1))); inversion E; reflexivity.
  - destruct (mem u (st_dom (a_store a))) eqn:M; [discriminate|]. apply mem_false in M. inversion E; subst; cbn.
    rewrite upd_cases. destruct (Nat.eqb_spec t u) as [->|]; [contradiction|reflexivity].
  - destruct (mem u (a_alone a)); [|discriminate]. inversion E; reflexivity.
  - destruct (mem u (st_dom (a_store a))); [|discriminate]. inversion E; reflexivity.
  - destruct (mem u (st_dom (a_store a))); [|discriminate]. inversion E; reflexivity.
Qed.

Theorem task_put : forall x os a v p name t y a',
  assemble_all (assembly0 x) os = Some a -> assemble a (APut v p name t y) = Some a' ->
  exists u, holds (a_sets a' v) (p ++ [name]) u /\ st_get (a_store a') u = y /\
    ((exists z, holds (a_sets a v) (p ++ [name]) z) -> holds (a_sets a v) (p ++ [name]) u) /\
    (~ (exists z, holds (a_sets a v) (p ++ [name]) z) -> u = t /\ ~ In t (st_dom (a_store a))).
Proof.
  intros x os a v p name t y a' E0 E. destruct (all_sound os _ _ (sound0 x) E0) as [Ho Hw Hl Ha]. cbn in E.
  destruct (key_find name (set_tasks (set_at (a_sets a v) p))) as [z|] eqn:F.
  - apply (found_task a Ho) in F. inversion E; subst; cbn. exists z. rewrite upd_cases, Nat.eqb_refl.
    repeat split; auto. all: exfalso; apply H; eauto.
  - destruct (mem t (st_dom (a_store a))) eqn:M; [discriminate|]. apply mem_false in M. inversion E; subst; cbn.
    assert (N : forall z, ~ holds (a_sets a v) (p ++ [name]) z).
    { intros z Hz. apply (found_task a Ho) in Hz. congruence. }
    exists t. split; [apply (put_places a Ho); auto|]. split; [now rewrite upd_cases, Nat.eqb_refl|].
    split; [intros [z Hz]; destruct (N z Hz)|auto].
Qed.

Lemma at_found a v p name s : key_find name (set_sets (set_at (a_sets a v) p)) = Some s -> set_at (a_sets a v) (p ++ [name]) = s.
Proof.
  generalize (a_sets a v). induction p as [|k p IH]; intros x F; cbn in *.
  - now rewrite F.
  - destruct (key_find k (set_sets x)); [now apply IH|]. discriminate.
Qed.

Lemma at_not_found a v p name : key_find name (set_sets (set_at (a_sets a v) p)) = None -> set_at (a_sets a v) (p ++ [name]) = no_tasks.
Proof.
  generalize (a_sets a v). induction p as [|k p IH]; intros x F; cbn in *.
  - now rewrite F.
  - destruct (key_find k (set_sets x)); [now apply IH|]. reflexivity.
Qed.

Lemma gone_below a v p t : (forall v, ordered (a_sets a v)) ->
  (In t (map snd (for_each_task (set_at (a_sets a v) p))) <-> exists q, below p q /\ holds (a_sets a v) q t).
Proof.
  intros Ho. rewrite gone_at by exact Ho. split.
  - intros (r & Hr & H). exists (p ++ r). split; [exists r; auto|exact H].
  - intros (q & (r & Hr & ->) & H). eauto.
Qed.

Theorem places : forall x os a o a',
  assemble_all (assembly0 x) os = Some a -> assemble a o = Some a' ->
  (forall w q u, holds (a_sets a' w) q u <-> placed a o w q u) /\
  (forall u, In u (st_dom (a_store a')) <-> alive a o u).
Proof.
  intros x os a o a' E0 E. destruct (all_sound os _ _ (sound0 x) E0) as [Ho Hw Hl Ha].
  destruct o as [v p name t y|v p w q|v p name|v p name|t y|t|t y|h t v p]; cbn in E; cbn [placed alive].
  - destruct (key_find name (set_tasks (set_at (a_sets a v) p))) as [u|] eqn:F.
    + apply (found_task a Ho) in F. inversion E; subst a'; clear E. cbn. split.
      * intros w q z. split; [auto|]. intros [H|(-> & -> & -> & H)]; [exact H|]. destruct (H u F).
      * intros z. split; [auto|]. intros [H|(-> & H)]; [exact H|]. destruct (H u F).
    + destruct (mem t (st_dom (a_store a))) eqn:M; [discriminate|]. inversion E; subst a'; clear E. cbn.
      assert (N : forall y, ~ holds (a_sets a v) (p ++ [name]) y).
      { intros z Hz. apply (found_task a Ho) in Hz. congruence. }
      split.
      * intros w q z. rewrite (put_places a Ho) by exact N. split.
        -- intros [(-> & -> & ->)|H]; auto.
        -- intros [H|(-> & -> & -> & _)]; auto.
      * intros z. split; [intros [<-|H]; auto|intros [H|[-> _]]; auto].
  - destruct (Nat.eqb_spec v w) as [|Hn]; [discriminate|]. inversion E; subst a'; clear E. cbn. split.
    + intros x' q' u. rewrite (move_places a Ho) by exact Hn. split.
      * intros [H|(H & N1 & N2)]; [auto|]. right. split; [exact H|]. split; intros [-> (r & Hr & E)]; [now apply (N1 eq_refl r)|now apply (N2 eq_refl r)].
      * intros [H|(H & N1 & N2)]; [auto|]. right. split; [exact H|].
        split; intros -> r Hr Eq; [apply N1|apply N2]; (split; [reflexivity|exists r; auto]).
    + intros u. rewrite in_without. rewrite (gone_below a v p u Ho). reflexivity.
  - destruct (key_find name (set_tasks (set_at (a_sets a v) p))) as [u|] eqn:F.
    + apply (found_task a Ho) in F. inversion E; subst a'; clear E. cbn. split.
      * intros w q z. apply (erase_places a Ho).
      * intros z. rewrite in_without. cbn. split; intros [H1 H2]; (split; [exact H1|]).
        -- intros H3. apply H2. left. apply (found_task a Ho) in F, H3. congruence.
        -- intros [->|[]]. auto.
    + inversion E; subst a'; clear E.
      assert (N : forall y, ~ holds (a_sets a v) (p ++ [name]) y).
      { intros z Hz. apply (found_task a Ho) in Hz. congruence. }
      split.
      * intros w q z. split; [|tauto]. intros H. split; [exact H|]. intros [-> ->]. exact (N z H).
      * intros z. split; [|tauto]. intros H. split; [exact H|apply N].
  - destruct (key_find name (set_sets (set_at (a_sets a v) p))) as [s|] eqn:F.
    + inversion E; subst a'; clear E. cbn. split.
      * intros w q z. apply (erase_set_places a Ho).
      * intros z. rewrite in_without. rewrite <- (at_found a v p name s F). rewrite (gone_below a v _ z Ho). reflexivity.
    + inversion E; subst a'; clear E.
      assert (N : ~ exists z q, below (p ++ [name]) q /\ holds (a_sets a v) q z).
      { intros (z & Hz). apply (gone_below a v (p ++ [name]) z Ho) in Hz. rewrite (at_not_found a v p name F) in Hz. destruct Hz. }
      split.
      * intros w q z. split; [|tauto]. intros H. split; [exact H|]. intros [-> Hb]. apply N. eauto.
      * intros z. split; [|tauto]. intros H. split; [exact H|]. intros Hz. apply N. eauto.
  - destruct (mem t (st_dom (a_store a))) eqn:M; [discriminate|]. inversion E; subst a'; clear E. cbn.
    split; [reflexivity|]. intros u. split; [intros [<-|H]; auto|intros [H| ->]; auto].
  - destruct (mem t (a_alone a)) eqn:M; [|discriminate]. inversion E; subst a'; clear E. cbn.
    split; [reflexivity|]. intros u. rewrite in_without. cbn. intuition.
  - destruct (mem t (st_dom (a_store a))) eqn:M; [|discriminate]. inversion E; subst a'; clear E. cbn.
    split; reflexivity.
  - destruct (mem t (st_dom (a_store a))) eqn:M; [|discriminate]. inversion E; subst a'; clear E. cbn.
    split; [reflexivity|]. intros u. now rewrite help_dom.
Qed.
