(** Any number of calls of the bulk helpers. *)
From Coq Require Import String Permutation Relations.
From Verif Require Import Model.Common Model.TaskSet Model.Dag Model.Sched Model.Exec Spec.Graph Spec.Tasks Spec.Redundant Spec.Calls
     Proofs.TaskFacts.
Open Scope nat_scope.
Open Scope list_scope.

(** One call that goes over the list [l], for the tasks that get an entry and for the task
    that gets them all. *)
Section Loops.
Variable add : tid -> task -> task.
Variable get : task -> list tid.
Hypothesis Hget : forall d x, get (add d x) = get x ++ [d].

Lemma loop_each (dep : tid) : forall (l : list (string * tid)) st a b,
  let st' := fold_left (fun st nt => if snd nt =? dep then st
                          else store_set st (snd nt) (add dep (st_get st (snd nt)))) l st in
  In b (get (st_get st' a)) <-> In b (get (st_get st a)) \/ (a <> dep /\ In a (map snd l) /\ b = dep).
Proof.
  induction l as [|[nm x] l IH]; intros st a b; cbn zeta in *; [cbn; tauto|]. cbn [fold_left map snd In]. rewrite IH. clear IH.
  destruct (Nat.eqb_spec x dep) as [->|N].
  - intuition congruence.
  - unfold store_set. cbn [st_get]. unfold upd. destruct (Nat.eqb_spec a x) as [->|N'].
    + rewrite Hget, in_app_iff. cbn [In]. intuition congruence.
    + intuition congruence.
Qed.
Lemma loop_one (t : tid) : forall (l : list (string * tid)) st a b,
  let st' := fold_left (fun st nt => if t =? snd nt then st
                          else store_set st t (add (snd nt) (st_get st t))) l st in
  In b (get (st_get st' a)) <-> In b (get (st_get st a)) \/ (a <> b /\ a = t /\ In b (map snd l)).
Proof.
  induction l as [|[nm x] l IH]; intros st a b; cbn zeta in *; [cbn; tauto|]. cbn [fold_left map snd In]. rewrite IH. clear IH.
  destruct (Nat.eqb_spec t x) as [->|N].
  - intuition congruence.
  - unfold store_set. cbn [st_get]. unfold upd. destruct (Nat.eqb_spec a t) as [->|N'].
    + rewrite Hget, in_app_iff. cbn [In]. intuition congruence.
    + intuition congruence.
Qed.
End Loops.

(** The parts a loop does not touch. *)
Lemma keep_each {A} (f : task -> A) (add : tid -> task -> task) (H : forall d x, f (add d x) = f x) (dep : tid) :
  forall (l : list (string * tid)) st a,
  f (st_get (fold_left (fun st nt => if snd nt =? dep then st
               else store_set st (snd nt) (add dep (st_get st (snd nt)))) l st) a) = f (st_get st a).
Proof.
  induction l as [|[nm x] l IH]; intros st a; [reflexivity|]. cbn [fold_left snd]. rewrite IH. destruct (x =? dep); [reflexivity|].
  unfold store_set. cbn [st_get]. unfold upd. destruct (Nat.eqb_spec a x) as [->|_]; [apply H|reflexivity].
Qed.
Lemma keep_one {A} (f : task -> A) (add : tid -> task -> task) (H : forall d x, f (add d x) = f x) (t : tid) :
  forall (l : list (string * tid)) st a,
  f (st_get (fold_left (fun st nt => if t =? snd nt then st
               else store_set st t (add (snd nt) (st_get st t))) l st) a) = f (st_get st a).
Proof.
  induction l as [|[nm x] l IH]; intros st a; [reflexivity|]. cbn [fold_left snd]. rewrite IH. destruct (t =? x); [reflexivity|].
  unfold store_set. cbn [st_get]. unfold upd. destruct (Nat.eqb_spec a t) as [->|_]; [apply H|reflexivity].
Qed.

Lemma inside_visited ts t : inside ts t <-> In t (map snd (for_each_task ts)).
Proof. symmetry. apply visited_holds. Qed.

Lemma one_call st c a :
  let x := st_get st a in let y := st_get (do_call st c) a in
  t_has_job y = t_has_job x /\ t_resources y = t_resources x /\ t_hidden y = t_hidden x /\
  (forall b, In b (t_depends_on y) <-> In b (t_depends_on x) \/ says_dep c a b) /\
  (forall b, In b (t_run_after y) <-> In b (t_run_after x) \/ says_after c a b) /\
  (forall b, In b (t_invalidated_by y) <-> In b (t_invalidated_by x) \/ says_inval c a b).
Proof.
  cbn zeta. unfold says_dep, says_after, says_inval.
  destruct c as [ts d|t ts|ts d|t ts|t ts]; cbn [do_call];
    unfold for_each_add_dep, add_dep_to_each, run_each_after, run_after_all_of, invalidated_by_all_of.
  - rewrite (keep_each t_has_job add_depends_on), (keep_each t_resources add_depends_on), (keep_each t_hidden add_depends_on),
      (keep_each t_run_after add_depends_on), (keep_each t_invalidated_by add_depends_on) by reflexivity.
    repeat (split; [reflexivity|]). split; [|split; intros b; tauto].
    intros b. rewrite (loop_each add_depends_on t_depends_on ltac:(reflexivity) d), <- inside_visited. intuition congruence.
  - rewrite (keep_one t_has_job add_depends_on), (keep_one t_resources add_depends_on), (keep_one t_hidden add_depends_on),
      (keep_one t_run_after add_depends_on), (keep_one t_invalidated_by add_depends_on) by reflexivity.
    repeat (split; [reflexivity|]). split; [|split; intros b; tauto].
    intros b. rewrite (loop_one add_depends_on t_depends_on ltac:(reflexivity) t), <- inside_visited. intuition congruence.
  - rewrite (keep_each t_has_job add_run_after), (keep_each t_resources add_run_after), (keep_each t_hidden add_run_after),
      (keep_each t_depends_on add_run_after), (keep_each t_invalidated_by add_run_after) by reflexivity.
    repeat (split; [reflexivity|]). split; [intros b; tauto|]. split; [|intros b; tauto].
    intros b. rewrite (loop_each add_run_after t_run_after ltac:(reflexivity) d), <- inside_visited. intuition congruence.
  - rewrite (keep_one t_has_job add_run_after), (keep_one t_resources add_run_after), (keep_one t_hidden add_run_after),
      (keep_one t_depends_on add_run_after), (keep_one t_invalidated_by add_run_after) by reflexivity.
    repeat (split; [reflexivity|]). split; [intros b; tauto|]. split; [|intros b; tauto].
    intros b. rewrite (loop_one add_run_after t_run_after ltac:(reflexivity) t), <- inside_visited. intuition congruence.
  - rewrite (keep_one t_has_job add_invalidated_by), (keep_one t_resources add_invalidated_by), (keep_one t_hidden add_invalidated_by),
      (keep_one t_depends_on add_invalidated_by), (keep_one t_run_after add_invalidated_by) by reflexivity.
    repeat (split; [reflexivity|]). split; [intros b; tauto|]. split; [intros b; tauto|].
    intros b. rewrite (loop_one add_invalidated_by t_invalidated_by ltac:(reflexivity) t), <- inside_visited. intuition congruence.
Qed.

Lemma many_calls : forall l st a,
  let x := st_get st a in let y := st_get (fold_left do_call l st) a in
  t_has_job y = t_has_job x /\ t_resources y = t_resources x /\ t_hidden y = t_hidden x /\
  (forall b, In b (t_depends_on y) <-> In b (t_depends_on x) \/ exists c, In c l /\ says_dep c a b) /\
  (forall b, In b (t_run_after y) <-> In b (t_run_after x) \/ exists c, In c l /\ says_after c a b) /\
  (forall b, In b (t_invalidated_by y) <-> In b (t_invalidated_by x) \/ exists c, In c l /\ says_inval c a b).
Proof.
  induction l as [|c l IH]; intros st a; cbn zeta in *.
  - cbn [fold_left]. repeat (split; [reflexivity|]). repeat split; intros H; auto; destruct H as [H|(c & [] & _)]; exact H.
  - cbn [fold_left]. destruct (IH (do_call st c) a) as (E1 & E2 & E3 & E4 & E5 & E6).
    destruct (one_call st c a) as (F1 & F2 & F3 & F4 & F5 & F6). cbn zeta in *.
    rewrite E1, E2, E3. repeat (split; [assumption|]).
    assert (K : forall P : call -> Prop, (exists c', In c' (c :: l) /\ P c') <-> P c \/ exists c', In c' l /\ P c').
    { intros P. split; [intros (c' & [<-|H] & H'); [left|right; exists c']; auto|].
      intros [H|(c' & H & H')]; [exists c; split; [left; reflexivity|exact H]|exists c'; split; [right; exact H|exact H']]. }
    split; [|split]; intros b; rewrite K; [rewrite E4, F4|rewrite E5, F5|rewrite E6, F6]; tauto.
Qed.

Lemma calls_any_order : forall st l1 l2,
  (forall c, In c l1 <-> In c l2) -> same_lists (fold_left do_call l1 st) (fold_left do_call l2 st).
Proof.
  intros st l1 l2 H a. cbn zeta. destruct (many_calls l1 st a) as (E1 & E2 & _ & E4 & E5 & E6).
  destruct (many_calls l2 st a) as (F1 & F2 & _ & F4 & F5 & F6). cbn zeta in *.
  assert (K : forall P : call -> Prop, (exists c', In c' l1 /\ P c') <-> exists c', In c' l2 /\ P c').
  { intros P. split; intros (c & Hc & HP); exists c; (split; [apply H, Hc|exact HP]). }
  split; [congruence|]. split; [intros d; rewrite E4, F4, K; tauto|]. split; [intros d; rewrite E5, F5, K; tauto|].
  split; [intros d; rewrite E6, F6, K; tauto|]. rewrite E2, F2. tauto.
Qed.

Lemma calls_cycle : forall st l,
  task_cyclic (fold_left do_call l st) <->
  exists t, clos_trans tid (fun a b => task_after st a b \/ exists c, In c l /\ (says_dep c a b \/ says_after c a b)) t t.
Proof.
  intros st l.
  assert (E : forall a b, task_after (fold_left do_call l st) a b <->
              task_after st a b \/ exists c, In c l /\ (says_dep c a b \/ says_after c a b)).
  { intros a b. unfold task_after. destruct (many_calls l st a) as (_ & _ & _ & E4 & E5 & _). cbn zeta in *.
    unfold depends_on. rewrite E4, E5. split.
    - intros [[H|(c & Hc & H)]|[H|(c & Hc & H)]]; [auto|right; exists c; auto|auto|right; exists c; auto].
    - intros [[H|H]|(c & Hc & [H|H])]; [auto|auto|left; right; exists c; auto|right; right; exists c; auto]. }
  assert (K : forall (R S : tid -> tid -> Prop), (forall a b, R a b -> S a b) -> forall a b, clos_trans tid R a b -> clos_trans tid S a b).
  { intros R S HRS a b H. induction H as [a b H|a b d _ I1 _ I2]; [apply t_step, HRS, H|eapply t_trans; eassumption]. }
  unfold task_cyclic. split; intros [t H]; exists t; revert H; apply K; intros a b; apply E.
Qed.
