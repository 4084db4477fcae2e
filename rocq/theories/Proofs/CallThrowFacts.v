(** Calls of the helpers that run out of memory. *)
From Coq Require Import String Relations Lia.
From Verif Require Import Model.Common Model.TaskSet Model.Dag Model.CallThrow Spec.Graph Spec.Tasks Spec.Redundant Spec.Calls
     Spec.CallThrow Model.Sched Model.Exec Proofs.TaskFacts Proofs.RedundantFacts Proofs.CallFacts.
Open Scope string_scope.
Open Scope nat_scope.
Open Scope list_scope.

Section Visit.
  Context {A : Type} (alloc : A -> option A) (f : string -> tid -> A -> ended A).

  Lemma called_trans l1 a b : called alloc f l1 a b -> forall l2 c, called alloc f l2 b c -> called alloc f (l1 ++ l2) a c.
  Proof.
    intros H l2 c K. induction K as [b|l b c c' K IH E|l b c n t c' K IH E].
    - rewrite app_nil_r. exact H.
    - eapply called_name; [apply IH, H|exact E].
    - rewrite app_assoc. eapply called_next; [apply IH, H|exact E].
  Qed.

  (** What a part of the visit that is to call [f] for [l] does. *)
  Definition visit_ok (l : list (string * tid)) (a : A) (r : ended A) : Prop :=
    exists l1 l2, l = l1 ++ l2 /\
    match r with
    | Returned a' => l2 = [] /\ called alloc f l1 a a'
    | Threw a' => (called alloc f l1 a a' /\ alloc a' = None) \/
                  exists n t l3 a1, l2 = (n, t) :: l3 /\ called alloc f l1 a a1 /\ f n t a1 = Threw a'
    end.

  Lemma visit_then l l' a r g : visit_ok l a r -> (forall a', r = Returned a' -> visit_ok l' a' (g a')) ->
    visit_ok (l ++ l') a (and_then r g).
  Proof.
    intros (l1 & l2 & -> & H) K. destruct r as [b|b]; cbn [and_then].
    - destruct H as [-> H]. destruct (K b eq_refl) as (k1 & k2 & -> & K1). exists (l1 ++ k1), k2. rewrite app_nil_r. split; [apply app_assoc|].
      destruct (g b) as [d|d].
      + destruct K1 as [-> K1]. split; [reflexivity|]. apply (called_trans _ _ _ H _ _ K1).
      + destruct K1 as [[K1 K2]|(n & t & l3 & a1 & E & K1 & K2)].
        * left. split; [apply (called_trans _ _ _ H _ _ K1)|exact K2].
        * right. exists n, t, l3, a1. split; [exact E|]. split; [apply (called_trans _ _ _ H _ _ K1)|exact K2].
    - exists l1, (l2 ++ l'). split; [symmetry; apply app_assoc|]. destruct H as [H|(n & t & l3 & a1 & -> & H1 & H2)]; [left; exact H|].
      right. exists n, t, (l3 ++ l'), a1. split; [reflexivity|]. split; assumption.
  Qed.
  Lemma visit_name a : visit_ok [] a (made_name alloc a).
  Proof.
    exists [], []. split; [reflexivity|]. unfold made_name. destruct (alloc a) as [b|] eqn:E.
    - split; [reflexivity|]. eapply called_name; [apply called_none|exact E].
    - left. split; [apply called_none|exact E].
  Qed.
  Lemma visit_call n t a : visit_ok [(n, t)] a (f n t a).
  Proof.
    destruct (f n t a) as [b|b] eqn:E.
    - exists [(n, t)], []. split; [reflexivity|]. split; [reflexivity|].
      change [(n, t)] with ([] ++ [(n, t)]). eapply called_next; [apply called_none|exact E].
    - exists [], [(n, t)]. split; [reflexivity|]. right. exists n, t, [], a. split; [reflexivity|]. split; [apply called_none|exact E].
  Qed.

  Lemma visit_tasks prefix : forall l a, visit_ok (map (fun nt => (prefix ++ "/" ++ fst nt, snd nt))%string l) a (x_tasks alloc f prefix l a).
  Proof.
    induction l as [|[n t] l IH]; intros a.
    - exists [], []. split; [reflexivity|]. split; [reflexivity|apply called_none].
    - cbn [map x_tasks fst snd]. apply (visit_then [] ((prefix ++ "/" ++ n, t)%string :: _)); [apply visit_name|]. intros b _.
      apply (visit_then [(_, t)]); [apply visit_call|]. intros d _. apply IH.
  Qed.

  Lemma visit_impl : forall ts prefix a, visit_ok (for_each_task_impl ts prefix) a (x_impl alloc f ts prefix a).
  Proof.
    fix IH 1. intros [tasks sets] prefix a. cbn [for_each_task_impl x_impl]. apply visit_then; [apply visit_tasks|].
    intros b _. clear a. revert b. induction sets as [|[n s] sets IHs]; intros b.
    - exists [], []. split; [reflexivity|]. split; [reflexivity|apply called_none].
    - apply (visit_then []); [apply visit_name|]. intros d _. apply visit_then; [apply IH|]. intros d' _. apply IHs.
  Qed.

  Lemma visit_all ts a : visit_ok (for_each_task ts) a (x_for_each_task alloc f ts a).
  Proof. unfold x_for_each_task. apply (visit_then []); [apply visit_name|]. intros b _. apply visit_impl. Qed.
End Visit.

(** A visit that adds entries. *)
Section Pushes.
  Variables (fails : nat -> bool) (f : string -> tid -> nat * store -> ended (nat * store)) (g : store -> string * tid -> store).
  Hypothesis Hf : forall n t i st, f n t (i, st) = Returned (i, g st (n, t)) \/
    (fails i = false /\ f n t (i, st) = Returned (S i, g st (n, t))) \/ (fails i = true /\ f n t (i, st) = Threw (i, st)).

  Lemma pushes l a b : called (x_alloc fails) f l a b -> snd b = fold_left g l (snd a) /\ fst a <= fst b /\
    forall j, fst a <= j -> j < fst b -> fails j = false.
  Proof.
    induction 1 as [a|l a [i st] b' H (IH1 & IH2 & IH3) E|l a [i st] n t b' H (IH1 & IH2 & IH3) E]; cbn [fst snd] in *.
    - split; [reflexivity|]. split; [lia|]. intros j H1 H2. lia.
    - unfold x_alloc in E. cbn [fst snd] in E. destruct (fails i) eqn:F; [discriminate|]. inversion E. subst b'. cbn [fst snd].
      split; [exact IH1|]. split; [lia|]. intros j H1 H2. destruct (Nat.eq_dec j i) as [->|N]; [exact F|apply IH3; lia].
    - destruct (Hf n t i st) as [K|[[F K]|[F K]]]; rewrite K in E; inversion E; subst b'; cbn [fst snd];
        rewrite fold_left_app, <- IH1; (split; [reflexivity|]); (split; [lia|]); intros j H1 H2.
      + apply IH3; lia.
      + destruct (Nat.eq_dec j i) as [->|N]; [exact F|apply IH3; lia].
  Qed.

  Lemma push_visit ts st r : x_for_each_task (x_alloc fails) f ts (0, st) = r ->
    match r with
    | Returned (i, st') => st' = fold_left g (for_each_task ts) st /\ forall j, j < i -> fails j = false
    | Threw (i, st') => fails i = true /\ exists l1 l2, for_each_task ts = l1 ++ l2 /\ st' = fold_left g l1 st
    end.
  Proof.
    intros <-. destruct (visit_all (x_alloc fails) f ts (0, st)) as (l1 & l2 & E & H).
    destruct (x_for_each_task (x_alloc fails) f ts (0, st)) as [[i st']|[i st']].
    - destruct H as [-> H]. rewrite app_nil_r in E. destruct (pushes _ _ _ H) as (P1 & _ & P2). cbn [fst snd] in *. rewrite E.
      split; [exact P1|]. intros j Hj. apply P2; lia.
    - destruct H as [[H F]|(n & t & l3 & [i1 st1] & -> & H & F)]; destruct (pushes _ _ _ H) as (P1 & _ & P2); cbn [fst snd] in *.
      + unfold x_alloc in F. cbn [fst snd] in F. destruct (fails i) eqn:Fi; [|discriminate]. split; [reflexivity|].
        exists l1, l2. split; [exact E|exact P1].
      + destruct (Hf n t i1 st1) as [K|[[_ K]|[Fi K]]]; rewrite K in F; inversion F as [[F1 F2]].
        rewrite <- F1. split; [exact Fi|]. exists l1, ((n, t) :: l3). split; [exact E|congruence].
  Qed.
End Pushes.

(** What part of a loop leaves. *)
Section Parts.
  Variables (add : tid -> task -> task) (get : task -> list tid).
  Hypothesis Hget : forall d x, get (add d x) = get x ++ [d].

  Lemma part_each (dep : tid) : forall (l : list (string * tid)) st a,
    let st' := fold_left (fun st nt => if snd nt =? dep then st
                            else store_set st (snd nt) (add dep (st_get st (snd nt)))) l st in
    exists d, get (st_get st' a) = get (st_get st a) ++ d /\ Forall (fun b => a <> b /\ In a (map snd l) /\ b = dep) d.
  Proof.
    induction l as [|[nm x] l IH]; intros st a; cbn zeta in *; [exists []; split; [symmetry; apply app_nil_r|constructor]|].
    cbn [fold_left map snd].
    destruct (Nat.eqb_spec x dep) as [->|N].
    - destruct (IH st a) as (d & E & F). exists d. split; [exact E|]. eapply Forall_impl; [|exact F]. cbn. tauto.
    - destruct (IH (store_set st x (add dep (st_get st x))) a) as (d & E & F). rewrite E. unfold store_set. cbn [st_get]. unfold upd.
      destruct (Nat.eqb_spec a x) as [->|N'].
      + rewrite Hget, <- app_assoc. exists ([dep] ++ d). split; [reflexivity|]. constructor; [cbn; auto|].
        eapply Forall_impl; [|exact F]. cbn. tauto.
      + exists d. split; [reflexivity|]. eapply Forall_impl; [|exact F]. cbn. tauto.
  Qed.
  Lemma part_one (t : tid) : forall (l : list (string * tid)) st a,
    let st' := fold_left (fun st nt => if t =? snd nt then st
                            else store_set st t (add (snd nt) (st_get st t))) l st in
    exists d, get (st_get st' a) = get (st_get st a) ++ d /\ Forall (fun b => a <> b /\ a = t /\ In b (map snd l)) d.
  Proof.
    induction l as [|[nm x] l IH]; intros st a; cbn zeta in *; [exists []; split; [symmetry; apply app_nil_r|constructor]|].
    cbn [fold_left map snd].
    destruct (Nat.eqb_spec t x) as [->|N].
    - destruct (IH st a) as (d & E & F). exists d. split; [exact E|]. eapply Forall_impl; [|exact F]. cbn. tauto.
    - destruct (IH (store_set st t (add x (st_get st t))) a) as (d & E & F). rewrite E. unfold store_set. cbn [st_get]. unfold upd.
      destruct (Nat.eqb_spec a t) as [->|N'].
      + rewrite Hget, <- app_assoc. exists ([x] ++ d). split; [reflexivity|]. constructor; [cbn; auto|].
        eapply Forall_impl; [|exact F]. cbn. tauto.
      + exists d. split; [reflexivity|]. eapply Forall_impl; [|exact F]. cbn. tauto.
  Qed.
End Parts.

Lemma dom_each (add : tid -> task -> task) (dep : tid) : forall (l : list (string * tid)) st,
  st_dom (fold_left (fun st nt => if snd nt =? dep then st
               else store_set st (snd nt) (add dep (st_get st (snd nt)))) l st) = st_dom st.
Proof. induction l as [|[nm x] l IH]; intros st; [reflexivity|]. cbn [fold_left snd]. rewrite IH. destruct (x =? dep); reflexivity. Qed.
Lemma dom_one (add : tid -> task -> task) (t : tid) : forall (l : list (string * tid)) st,
  st_dom (fold_left (fun st nt => if t =? snd nt then st
               else store_set st t (add (snd nt) (st_get st t))) l st) = st_dom st.
Proof. induction l as [|[nm x] l IH]; intros st; [reflexivity|]. cbn [fold_left snd]. rewrite IH. destruct (t =? x); reflexivity. Qed.

(** The function of the loop of a call. *)
Definition call_step (c : call) : store -> string * tid -> store :=
  match c with
  | ForEachAddDep _ d => fun st nt => if snd nt =? d then st else store_set st (snd nt) (add_depends_on d (st_get st (snd nt)))
  | AddDepToEach t _ => fun st nt => if t =? snd nt then st else store_set st t (add_depends_on (snd nt) (st_get st t))
  | RunEachAfter _ d => fun st nt => if snd nt =? d then st else store_set st (snd nt) (add_run_after d (st_get st (snd nt)))
  | RunAfterAllOf t _ => fun st nt => if t =? snd nt then st else store_set st t (add_run_after (snd nt) (st_get st t))
  | InvalidatedByAllOf t _ => fun st nt => if t =? snd nt then st else store_set st t (add_invalidated_by (snd nt) (st_get st t))
  end.
Lemma call_steps st c : do_call st c = fold_left (call_step c) (for_each_task (call_set c)) st.
Proof. destruct c; reflexivity. Qed.

Lemma try_steps fails st c r : try_call fails st c = r ->
  match r with
  | Returned (i, st') => st' = do_call st c /\ forall j, j < i -> fails j = false
  | Threw (i, st') => fails i = true /\ exists l1 l2, for_each_task (call_set c) = l1 ++ l2 /\ st' = fold_left (call_step c) l1 st
  end.
Proof.
  rewrite call_steps. destruct c as [ts d|t ts|ts d|t ts|t ts]; cbn [try_call call_set];
    unfold x_for_each_add_dep, x_add_dep_to_each, x_run_each_after, x_run_after_all_of, x_invalidated_by_all_of;
    apply push_visit; intros n x i st'; cbn [call_step fst snd]; unfold x_push; cbn [fst snd];
    match goal with |- context [if ?b then _ else _] => destruct b end; try (left; reflexivity);
    right; destruct (fails i); auto.
Qed.

Lemma part_call c l1 l2 st a : for_each_task (call_set c) = l1 ++ l2 ->
  let st' := fold_left (call_step c) l1 st in let x := st_get st a in let y := st_get st' a in
  st_dom st' = st_dom st /\
  t_has_job y = t_has_job x /\ t_resources y = t_resources x /\ t_hidden y = t_hidden x /\
  (exists d, t_depends_on y = t_depends_on x ++ d /\ Forall (says_dep c a) d) /\
  (exists d, t_run_after y = t_run_after x ++ d /\ Forall (says_after c a) d) /\
  (exists d, t_invalidated_by y = t_invalidated_by x ++ d /\ Forall (says_inval c a) d).
Proof.
  intros E. assert (HI : forall t, In t (map snd l1) -> inside (call_set c) t).
  { intros t Ht. apply inside_visited. rewrite E, map_app. apply in_app_iff. left. exact Ht. }
  cbn zeta. unfold says_dep, says_after, says_inval.
  assert (K : forall (P : tid -> Prop) (x y : list tid), y = x -> exists d, y = x ++ d /\ Forall P d)
    by (intros P x y ->; exists []; split; [symmetry; apply app_nil_r|constructor]).
  destruct c as [ts d|t ts|ts d|t ts|t ts]; cbn [call_step call_set] in *.
  - rewrite (dom_each add_depends_on), (keep_each t_has_job add_depends_on), (keep_each t_resources add_depends_on), (keep_each t_hidden add_depends_on) by reflexivity.
    repeat (split; [reflexivity|]). split; [|split; apply K; apply (keep_each _ add_depends_on); reflexivity].
    destruct (part_each add_depends_on t_depends_on ltac:(reflexivity) d l1 st a) as (e & E1 & F). exists e. split; [exact E1|].
    eapply Forall_impl; [|exact F]. cbn. intros b (H1 & H2 & H3). auto.
  - rewrite (dom_one add_depends_on), (keep_one t_has_job add_depends_on), (keep_one t_resources add_depends_on), (keep_one t_hidden add_depends_on) by reflexivity.
    repeat (split; [reflexivity|]). split; [|split; apply K; apply (keep_one _ add_depends_on); reflexivity].
    destruct (part_one add_depends_on t_depends_on ltac:(reflexivity) t l1 st a) as (e & E1 & F). exists e. split; [exact E1|].
    eapply Forall_impl; [|exact F]. cbn. intros b (H1 & H2 & H3). auto.
  - rewrite (dom_each add_run_after), (keep_each t_has_job add_run_after), (keep_each t_resources add_run_after), (keep_each t_hidden add_run_after) by reflexivity.
    repeat (split; [reflexivity|]). split; [apply K; apply (keep_each _ add_run_after); reflexivity|].
    split; [|apply K; apply (keep_each _ add_run_after); reflexivity].
    destruct (part_each add_run_after t_run_after ltac:(reflexivity) d l1 st a) as (e & E1 & F). exists e. split; [exact E1|].
    eapply Forall_impl; [|exact F]. cbn. intros b (H1 & H2 & H3). auto.
  - rewrite (dom_one add_run_after), (keep_one t_has_job add_run_after), (keep_one t_resources add_run_after), (keep_one t_hidden add_run_after) by reflexivity.
    repeat (split; [reflexivity|]). split; [apply K; apply (keep_one _ add_run_after); reflexivity|].
    split; [|apply K; apply (keep_one _ add_run_after); reflexivity].
    destruct (part_one add_run_after t_run_after ltac:(reflexivity) t l1 st a) as (e & E1 & F). exists e. split; [exact E1|].
    eapply Forall_impl; [|exact F]. cbn. intros b (H1 & H2 & H3). auto.
  - rewrite (dom_one add_invalidated_by), (keep_one t_has_job add_invalidated_by), (keep_one t_resources add_invalidated_by), (keep_one t_hidden add_invalidated_by) by reflexivity.
    repeat (split; [reflexivity|]). split; [apply K; apply (keep_one _ add_invalidated_by); reflexivity|].
    split; [apply K; apply (keep_one _ add_invalidated_by); reflexivity|].
    destruct (part_one add_invalidated_by t_invalidated_by ltac:(reflexivity) t l1 st a) as (e & E1 & F). exists e. split; [exact E1|].
    eapply Forall_impl; [|exact F]. cbn. intros b (H1 & H2 & H3). auto.
Qed.

Lemma threw_left : forall fails st c i st', try_call fails st c = Threw (i, st') ->
  fails i = true /\ st_dom st' = st_dom st /\
  forall a, let x := st_get st a in let y := st_get st' a in
  t_has_job y = t_has_job x /\ t_resources y = t_resources x /\ t_hidden y = t_hidden x /\
  (exists d, t_depends_on y = t_depends_on x ++ d /\ Forall (says_dep c a) d) /\
  (exists d, t_run_after y = t_run_after x ++ d /\ Forall (says_after c a) d) /\
  (exists d, t_invalidated_by y = t_invalidated_by x ++ d /\ Forall (says_inval c a) d).
Proof.
  intros fails st c i st' H. destruct (try_steps _ _ _ _ H) as (F & l1 & l2 & E & ->). split; [exact F|].
  split; [exact (proj1 (part_call c l1 l2 st 0 E))|]. intros a. exact (proj2 (part_call c l1 l2 st a E)).
Qed.

Lemma returned_all : forall fails st c i st', try_call fails st c = Returned (i, st') ->
  st' = do_call st c /\ forall j, j < i -> fails j = false.
Proof. intros fails st c i st' H. exact (try_steps _ _ _ _ H). Qed.

Lemma enough_memory : forall fails st c, (forall i, fails i = false) -> exists i, try_call fails st c = Returned (i, do_call st c).
Proof.
  intros fails st c H. destruct (try_call fails st c) as [[i st']|[i st']] eqn:E.
  - exists i. rewrite (proj1 (returned_all _ _ _ _ _ E)). reflexivity.
  - pose proof (proj1 (threw_left _ _ _ _ _ E)) as F. rewrite H in F. discriminate.
Qed.

(** Between [st] and the complete call. *)
Lemma vain_between c st st' : tried_in_vain c st st' -> forall a, let x := st_get st a in let y := st_get st' a in
  t_has_job y = t_has_job x /\ t_resources y = t_resources x /\
  (forall b, In b (t_depends_on y) -> In b (t_depends_on x) \/ says_dep c a b) /\ incl (t_depends_on x) (t_depends_on y) /\
  (forall b, In b (t_run_after y) -> In b (t_run_after x) \/ says_after c a b) /\ incl (t_run_after x) (t_run_after y) /\
  (forall b, In b (t_invalidated_by y) -> In b (t_invalidated_by x) \/ says_inval c a b) /\ incl (t_invalidated_by x) (t_invalidated_by y).
Proof.
  induction 1 as [st|st fails i st1 st2 E V IH]; intros a; cbn zeta in *.
  - repeat split; auto; try (intros b Hb; left; exact Hb); apply incl_refl.
  - destruct (threw_left _ _ _ _ _ E) as (_ & _ & G). destruct (G a) as (G1 & G2 & _ & (d1 & G4 & F4) & (d2 & G5 & F5) & (d3 & G6 & F6)).
    destruct (IH a) as (I1 & I2 & I3 & I4 & I5 & I6 & I7 & I8). cbn zeta in *. rewrite Forall_forall in F4, F5, F6.
    rewrite G4 in I3, I4. rewrite G5 in I5, I6. rewrite G6 in I7, I8.
    split; [congruence|]. split; [congruence|].
    split; [intros b Hb; destruct (I3 b Hb) as [Y|Y]; [apply in_app_iff in Y; destruct Y; auto|auto]|].
    split; [intros b Hb; apply I4, in_app_iff; auto|].
    split; [intros b Hb; destruct (I5 b Hb) as [Y|Y]; [apply in_app_iff in Y; destruct Y; auto|auto]|].
    split; [intros b Hb; apply I6, in_app_iff; auto|].
    split; [intros b Hb; destruct (I7 b Hb) as [Y|Y]; [apply in_app_iff in Y; destruct Y; auto|auto]|].
    intros b Hb. apply I8, in_app_iff. auto.
Qed.

Lemma tried_again : forall c st st', tried_in_vain c st st' -> same_lists (do_call st' c) (do_call st c).
Proof.
  intros c st st' V a. cbn zeta. destruct (vain_between _ _ _ V a) as (I1 & I2 & I3 & I4 & I5 & I6 & I7 & I8).
  destruct (one_call st c a) as (E1 & E2 & _ & E4 & E5 & E6). destruct (one_call st' c a) as (F1 & F2 & _ & F4 & F5 & F6). cbn zeta in *.
  split; [congruence|]. split; [intros d; rewrite E4, F4; specialize (I3 d); specialize (I4 d); tauto|].
  split; [intros d; rewrite E5, F5; specialize (I5 d); specialize (I6 d); tauto|].
  split; [intros d; rewrite E6, F6; specialize (I7 d); specialize (I8 d); tauto|]. rewrite E2, F2, I2. tauto.
Qed.

Lemma vain_cyclic : forall c st st', tried_in_vain c st st' -> task_cyclic st' -> task_cyclic (do_call st c).
Proof.
  intros c st st' V (t & H). exists t. revert H. generalize t at 2 4. intros u H.
  assert (K : forall a b, task_after st' a b -> task_after (do_call st c) a b).
  { intros a b. unfold task_after, depends_on.
    destruct (vain_between _ _ _ V a) as (I1 & I2 & I3 & I4 & I5 & I6 & I7 & I8). cbn zeta in *.
    destruct (one_call st c a) as (E1 & E2 & _ & E4 & E5 & E6). cbn zeta in *.
    intros [Y|Y]; [left; apply E4, I3, Y|right; apply E5, I5, Y]. }
  induction H as [a b H|a b d _ IH1 _ IH2]; [apply t_step, K, H|eapply t_trans; eassumption].
Qed.

Lemma tried_executions : forall cl st st' ts filt iv addr c1 c2, tried_in_vain cl st st' ->
  execution_of (do_call st' cl) ts filt iv addr c1 -> execution_of (do_call st cl) ts filt iv addr c2 ->
  c_threads c1 = c_threads c2 -> same_meaning c1 c2.
Proof.
  intros cl st st' ts filt iv addr c1 c2 V X1 X2 T. apply (declared_same _ _ _ _ _ _ _ _ X1 X2 T).
  apply lists_same. exact (tried_again _ _ _ V).
Qed.
