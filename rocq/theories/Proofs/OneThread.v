(** Executions with at most one thread (C13, C114). *)
From Coq Require Import Lia String Permutation Relations.
From Verif Require Import Model.Common Model.Records Model.Jobs Model.TaskSet Model.Dag
     Model.Sched Model.Exec Model.ExecSet Model.RunLoop Spec.Graph Spec.Trace Spec.Tasks Spec.Parallel Spec.Timing
     Proofs.Sets Proofs.SchedFacts Proofs.InvalFacts Proofs.TraceFacts Proofs.ExecInv
     Proofs.ExecStep Proofs.ExecCtl Proofs.LogFacts Proofs.ExecProps Proofs.ExecProps2
     Proofs.StepCases Proofs.ExecProps3 Proofs.SharpTicks Proofs.SetExec Proofs.ParallelFacts Proofs.VisitFacts Proofs.LoopFacts.
Open Scope nat_scope.
Open Scope list_scope.

Definition all_timeouts (tr : list event) (l : list nid) : nat := list_sum (map (polls tr) l).
Lemma all_polls_sum tr l : all_polls tr l = List.length l + all_timeouts tr l.
Proof. unfold all_polls, all_timeouts, list_sum. induction l as [|x l IH]; cbn [map fold_right List.length]; lia. Qed.
Lemma polls_cons e tr n : polls (e :: tr) n = (match e with ETimeout m => if m =? n then 1 else 0 | _ => 0 end) + polls tr n.
Proof. unfold polls. cbn [filter]. destruct e; try reflexivity. destruct (n0 =? n); reflexivity. Qed.
Lemma one_of m l : In m l -> 1 <= list_sum (map (fun n => if m =? n then 1 else 0) l).
Proof.
  induction l as [|x l IH]; intros H; [destruct H|]. unfold list_sum in *. cbn [map fold_right]. destruct H as [->|H].
  - rewrite Nat.eqb_refl. lia.
  - specialize (IH H). lia.
Qed.
Lemma timeouts_le tr l : (forall n, In (ETimeout n) tr -> In n l) -> timeouts tr <= all_timeouts tr l.
Proof.
  induction tr as [|e tr IH]; intros H; [unfold timeouts; cbn; lia|].
  assert (IH' : timeouts tr <= all_timeouts tr l) by (apply IH; intros n Hn; apply H; right; exact Hn).
  unfold all_timeouts in *. rewrite (map_ext _ _ (polls_cons e tr)), sum_add. unfold timeouts in *. cbn [filter].
  destruct e; cbn [is_timeout]; try lia. cbn [List.length].
  assert (G : 1 <= list_sum (map (fun k => if n =? k then 1 else 0) l)) by (apply one_of, H; left; reflexivity). cbv beta iota. unfold nid in *. lia.
Qed.
Lemma timeout_node c z s n : wf_dag (c_dag c) -> reachable c z s -> In (ETimeout n) (trace s) -> In n (node_ids (c_dag c)).
Proof.
  intros Hwf HR H. apply in_split in H as (a & b & B). destruct (trace_at c z s Hwf HR _ _ _ B) as [[He _] _]. cbn [ev_cond] in He.
  destruct He as [Hl _].
  assert (Hl' : In (ELaunch n) (trace s)) by (rewrite B; apply in_or_app; left; apply in_rev; exact Hl).
  apply in_split in Hl' as (a' & b' & B'). destruct (trace_at c z s Hwf HR _ _ _ B') as [[He' _] _]. cbn [ev_cond] in He'.
  apply He'.
Qed.

(** [c] is part of [c'], with node [n] in the place [f n]. *)
Lemma slowest f : forall c z ls s er c' z' ls' s' er',
  wf_dag (c_dag c) -> wf_dag (c_dag c') -> c_threads c' <= 1 ->
  (forall n, In n (node_ids (c_dag c)) -> In (f n) (node_ids (c_dag c'))) ->
  (forall a b, In a (node_ids (c_dag c)) -> In b (node_ids (c_dag c)) -> f a = f b -> a = b) ->
  run_labels c (init z) ls = Some s -> result s = RRecord er ->
  run_labels c' (init z') ls' = Some s' -> result s' = RRecord er' ->
  (forall n, In n (node_ids (c_dag c)) -> polls (trace s) n <= polls (trace s') (f n)) ->
  ticks ls <= ticks ls'.
Proof.
  intros c z ls s er c' z' ls' s' er' Hwf Hwf' Ht Hin Hinj E1 R1 E2 R2 Hp.
  assert (L0 : 1 <= ticks ls').
  { destruct (finished_log c' z' s' Hwf' (ex_intro _ ls' E2) er' R2) as (_ & Epc & _).
    exact (some_tick c' Hwf' ls' (init z') s' (inv_init c' z') I E2 Epc). }
  assert (U : ticks ls <= (if List.length (node_ids (c_dag c)) =? 0 then 1 else List.length (node_ids (c_dag c)) + 2) + timeouts (trace s)).
  { apply (sharp_ticks c z ls s Hwf E1). intros b Eb. unfold result in R1. rewrite Eb in R1. discriminate. }
  assert (T : timeouts (trace s) <= all_timeouts (trace s) (node_ids (c_dag c))).
  { apply timeouts_le. intros n. apply (timeout_node c z s n Hwf (ex_intro _ ls E1)). }
  destruct (node_ids (c_dag c)) as [|x xs] eqn:Ei; [cbn in U, T; lia|]. rewrite <- Ei in *.
  replace (List.length (node_ids (c_dag c)) =? 0) with false in U by (rewrite Ei; reflexivity).
  assert (Hmi : incl (map f (node_ids (c_dag c))) (node_ids (c_dag c'))).
  { intros y Hy. apply in_map_iff in Hy. destruct Hy as (n & <- & Hn). apply Hin, Hn. }
  assert (Hmn : NoDup (map f (node_ids (c_dag c)))).
  { assert (G : forall l0, NoDup l0 -> incl l0 (node_ids (c_dag c)) -> NoDup (map f l0)).
    { induction 1 as [|y l0 Hy Hn IH]; intros Hl; [constructor|]. cbn [map]. constructor; [|apply IH; intros k Hk; apply Hl; right; exact Hk].
      intros Hf. apply in_map_iff in Hf. destruct Hf as (k & Ek & Hk). apply Hinj in Ek; [subst k; exact (Hy Hk)| |apply Hl; left; reflexivity].
      apply Hl. right. exact Hk. }
    apply G; [apply Hwf|apply incl_refl]. }
  assert (M : all_polls (trace s) (node_ids (c_dag c)) <= all_polls (trace s') (map f (node_ids (c_dag c)))).
  { unfold all_polls. rewrite map_map. apply sum_le. intros n Hn. specialize (Hp n Hn). lia. }
  destruct (visits_end2 c' z' ls' s' er' _ _ Hwf' E2 R2 Hmn Hmi (width_threads _ _)) as [H|[_ H]].
  - replace (Nat.max 1 (c_threads c')) with 1 in H by lia. rewrite all_polls_sum in M. lia.
  - exfalso. rewrite H in Hmi. apply (Hmi (f x)). apply in_map. rewrite Ei. left. reflexivity.
Qed.

Theorem one_thread_ticks : forall c z ls s er,
  wf_dag (c_dag c) -> run_labels c (init z) ls = Some s -> result s = RRecord er -> c_threads c <= 1 ->
  let N := List.length (node_ids (c_dag c)) in
  ticks ls = (if N =? 0 then 1 else N + 2) + timeouts (trace s).
Proof.
  intros c z ls s er Hwf E R Ht N.
  assert (U : ticks ls <= (if N =? 0 then 1 else N + 2) + timeouts (trace s)).
  { apply (sharp_ticks c z ls s Hwf E). intros b Eb. unfold result in R. rewrite Eb in R. discriminate. }
  assert (T : timeouts (trace s) <= all_timeouts (trace s) (node_ids (c_dag c))).
  { apply timeouts_le. intros n. apply (timeout_node c z s n Hwf (ex_intro _ ls E)). }
  destruct (visits_end2 c z ls s er _ _ Hwf E R (proj1 Hwf) (incl_refl _) (width_threads _ _)) as [H|[H0 H]].
  - replace (Nat.max 1 (c_threads c)) with 1 in H by lia. rewrite all_polls_sum in H. fold N in H. destruct (N =? 0); lia.
  - subst N. rewrite H in *. cbn in T |- *. cbn in U. lia.
Qed.

Theorem one_thread_slowest : forall c z ls s er c' z' ls' s' er',
  wf_dag (c_dag c) -> c_dag c' = c_dag c -> c_threads c' <= 1 ->
  run_labels c (init z) ls = Some s -> result s = RRecord er ->
  run_labels c' (init z') ls' = Some s' -> result s' = RRecord er' ->
  (forall n, In n (node_ids (c_dag c)) -> polls (trace s) n <= polls (trace s') n) ->
  ticks ls <= ticks ls'.
Proof.
  intros c z ls s er c' z' ls' s' er' Hwf Ed Ht E1 R1 E2 R2 Hp.
  apply (slowest (fun n => n) c z ls s er c' z' ls' s' er' Hwf); rewrite ?Ed; auto.
Qed.

Theorem one_thread_sets : forall st ts filt iv addr c z ls s er st' ts' filt' iv' addr' c' z' ls' s' er',
  execution_of st ts filt iv addr c -> execution_of st' ts' filt' iv' addr' c' -> c_threads c' <= 1 ->
  (forall t, selected st ts filt t -> selected st' ts' filt' t) ->
  run_labels c (init z) ls = Some s -> result s = RRecord er ->
  run_labels c' (init z') ls' = Some s' -> result s' = RRecord er' ->
  (forall t, selected st ts filt t -> polls (trace s) (addr t) <= polls (trace s') (addr' t)) ->
  ticks ls <= ticks ls'.
Proof.
  intros st ts filt iv addr c z ls s er st' ts' filt' iv' addr' c' z' ls' s' er' X X' Ht Hsel E1 R1 E2 R2 Hp.
  destruct (exec_facts _ _ _ _ _ _ X) as (W1 & _ & _ & T1 & N1 & I1 & D1 & C1 & _).
  destruct (exec_facts _ _ _ _ _ _ X') as (W2 & _ & _ & T2 & N2 & I2 & D2 & C2 & _).
  set (f := fun n => addr' (node_task (c_dag c) n)).
  assert (Ff : forall t, selected st ts filt t -> f (addr t) = addr' t).
  { intros t St. unfold f. destruct (T1 t St) as (_ & -> & _). reflexivity. }
  apply (slowest f c z ls s er c' z' ls' s' er' W1 W2 Ht); auto.
  - intros n Hn. destruct (N1 n Hn) as (t & St & ->). rewrite (Ff t St). apply (T2 t (Hsel t St)).
  - intros a b Ha Hb. destruct (N1 a Ha) as (x & Sx & ->). destruct (N1 b Hb) as (y & Sy & ->). rewrite (Ff x Sx), (Ff y Sy).
    intros E. apply (I2 x y (Hsel x Sx) (Hsel y Sy)) in E. congruence.
  - intros n Hn. destruct (N1 n Hn) as (t & St & ->). rewrite (Ff t St). apply Hp, St.
Qed.

Theorem one_thread_run : forall c period z t0 ts er s' fin,
  wf_dag (c_dag c) -> (0 <= period)%Z -> run_at c period (init z) t0 ts (RRecord er) s' fin -> c_threads c <= 1 ->
  let N := List.length (node_ids (c_dag c)) in
  let k := (if N =? 0 then 1 else N + 2) + timeouts (trace s') in
  List.length ts = k /\ (t0 + (Z.of_nat k - 1) * period <= fin)%Z /\
  (on_time period t0 t0 ts -> ticks_within period ts -> fin <= t0 + Z.of_nat k * period)%Z.
Proof.
  intros c p z t0 ts er s' fin Hwf Hp H Ht N k. destruct (loop_labels _ _ _ _ _ _ _ _ _ H) as (ls & A & B & _ & D & F).
  destruct F as [F|F]; [destruct (F er); reflexivity|].
  pose proof (one_thread_ticks c z ls s' er Hwf A (eq_sym B) Ht) as L. cbn zeta in L. fold N in L. fold k in L.
  assert (Lk : List.length ts = k) by lia. split; [exact Lk|]. split.
  - assert (K : 1 <= k) by (subst k; destruct (N =? 0); lia).
    assert (G : exists b e, nth_error ts (k - 1) = Some (b, e)).
    { destruct (nth_error ts (k - 1)) as [[b e]|] eqn:En; [eauto|]. apply nth_error_None in En. lia. }
    destruct G as (b & e & En). destruct (run_schedule _ _ _ _ _ _ _ _ _ _ _ H En) as (X & Y & _). nia.
  - intros T W. rewrite <- Lk. apply (proj2 (run_most c p z t0 ts er s' fin Hwf H) T W).
Qed.
