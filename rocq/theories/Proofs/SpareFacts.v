(** Threads that are not made use of make no difference (C107). *)
From Coq Require Import Lia String Permutation Relations.
From Verif Require Import Model.Common Model.Records Model.Jobs Model.TaskSet Model.Dag
     Model.Sched Model.Exec Spec.Graph Spec.Trace Spec.Machine Spec.Constraints Spec.Spare
     Proofs.Sets Proofs.SchedFacts Proofs.InvalFacts Proofs.TraceFacts Proofs.ExecInv
     Proofs.ExecStep Proofs.ExecCtl Proofs.LogFacts Proofs.ExecProps Proofs.ExecProps2
     Proofs.StepCases Proofs.ExecProps3 Proofs.Ticks Proofs.MachineFacts Proofs.PlaceFacts.
Open Scope nat_scope.
Open Scope list_scope.

(** At the end of the cleanup: which tasks are under way, which could begin. *)
Section Here.
Variables (c : config) (z : Z) (s : state) (kept : list coro).
Hypothesis Hwf : wf_dag (c_dag c).
Hypothesis HR : reachable c z s.
Hypothesis Epc : s_pc s = Clean PMain kept [].

Lemma here_act : Act c (s_todo s) (s_ns s) (s_used s) kept (s_fut s) (s_erec s) (s_log s).
Proof.
  pose proof (i_pc _ _ (r_inv c z s Hwf HR)) as P. unfold pc_inv in P. rewrite Epc in P. destruct P as (A & _).
  unfold act, live in A. rewrite Epc in A. cbn in A. rewrite app_nil_r in A. exact A.
Qed.

Lemma here_len : List.length (compact (s_coros s) kept) = List.length (map co_node kept).
Proof.
  pose proof (i_pc _ _ (r_inv c z s Hwf HR)) as P. unfold pc_inv in P. rewrite Epc in P. destruct P as (_ & _ & _ & Hl & _).
  unfold compact. rewrite !map_length, combine_length, map_length. cbn in Hl. lia.
Qed.

Lemma here_wait n : In n (map co_node kept) -> exists rec, In (Coro n (CWait rec)) kept.
Proof.
  pose proof (i_pc _ _ (r_inv c z s Hwf HR)) as P. unfold pc_inv in P. rewrite Epc in P. destruct P as (_ & _ & Hw & _).
  intros H. apply in_map_iff in H as ([m st] & <- & H). destruct (Hw _ H) as [rec E]. cbn in E. subst st. exists rec. exact H.
Qed.

Lemma here_nodup : NoDup (map co_node kept).
Proof.
  pose proof (act_nodup c _ _ _ _ _ _ _ (proj1 Hwf) here_act) as N.
  apply NoDup_app_iff in N as (_ & N & _). apply NoDup_app_iff in N as (N & _). exact N.
Qed.

Lemma here_not_recorded n : In n (map co_node kept) -> ~ recorded (trace s) n.
Proof.
  intros H Hr. pose proof (act_nodup c _ _ _ _ _ _ _ (proj1 Hwf) here_act) as N.
  apply NoDup_app_iff in N as (_ & N & _). apply NoDup_app_iff in N as (_ & _ & N).
  apply (N n H). apply (proj1 (act_recorded c _ _ _ _ _ _ _ here_act n)). exact Hr.
Qed.

Lemma here_kept n : In n (map co_node kept) <-> under_way (trace s) n.
Proof.
  split.
  - intros H. split; [|exact (here_not_recorded n H)]. destruct (here_wait n H) as [rec Hw].
    destruct (w_before _ _ _ _ _ _ (a_wait _ _ _ _ _ _ _ _ here_act _ _ Hw)) as [er B]. exists er. apply -> in_rev. exact B.
  - intros [[er B] Hr]. assert (Hin : In n (node_ids (c_dag c))).
    { apply in_split in B as (a & b & B). destruct (trace_at c z s Hwf HR _ _ _ B) as [[He _] _]. cbn [ev_cond] in He. apply He. }
    apply (proj1 (act_where c _ _ _ _ _ _ _ here_act n)) in Hin as [H|[H|H]]; [exfalso|exact H|exfalso].
    + destruct (a_idle _ _ _ _ _ _ _ _ here_act n (or_introl H)) as (_ & _ & I). apply I. exists er. apply in_rev. exact B.
    + apply Hr. apply (proj2 (act_recorded c _ _ _ _ _ _ _ here_act n)). exact H.
Qed.

Lemma here_todo n : In n (s_todo s) -> In n (node_ids (c_dag c)) /\ ~ task_begun (trace s) n /\ ~ recorded (trace s) n /\ ~ In n (map co_node kept).
Proof.
  intros H. pose proof (act_nodup c _ _ _ _ _ _ _ (proj1 Hwf) here_act) as N. apply NoDup_app_iff in N as (_ & _ & N).
  split; [apply (proj2 (act_where c _ _ _ _ _ _ _ here_act n)); left; exact H|]. split; [|split].
  - intros [er B]. destruct (a_idle _ _ _ _ _ _ _ _ here_act n (or_introl H)) as (_ & _ & I). apply I. exists er. apply in_rev. exact B.
  - intros Hr. apply (N n H). apply in_or_app. right. apply (proj1 (act_recorded c _ _ _ _ _ _ _ here_act n)). exact Hr.
  - intros Hk. apply (N n H). apply in_or_app. left. exact Hk.
Qed.

Lemma here_ready n : In n (s_todo s) -> ready (c_dag c) (s_ns s) (node_res c) (s_used s) n -> could_begin c (trace s) n.
Proof.
  intros Hn (_ & Ha & Hu). destruct (here_todo n Hn) as (Hin & Hb & _). split; [exact Hin|]. split; [exact Hb|]. split.
  - intros m Hm. apply (act_done c _ _ _ _ _ _ _ here_act m); [apply (proj2 Hwf) in Hm; apply Hm|exact (Ha m Hm)].
  - intros m Hm r H1 H2. apply here_kept in Hm. destruct (here_wait m Hm) as [rec Hw]. apply (Hu r H1).
    apply (a_used _ _ _ _ _ _ _ _ here_act). exists m, rec. split; assumption.
Qed.

(** The tasks under way and one that could begin are apart from each other. *)
Lemma here_apart n : In n (s_todo s) -> ready (c_dag c) (s_ns s) (node_res c) (s_used s) n ->
  forall a b, In a (n :: map co_node kept) -> In b (n :: map co_node kept) -> a <> b -> apart c a b.
Proof.
  intros Hn Hrd. pose proof (r_log c z s Hwf HR) as L. destruct (here_ready n Hn Hrd) as (_ & _ & Ha & Hu).
  destruct (here_todo n Hn) as (_ & _ & Hnr & Hnk).
  assert (G : forall a b, In a (n :: map co_node kept) -> In b (n :: map co_node kept) -> ~ clos_trans nid (runs_after (c_dag c)) a b).
  { intros a b Hia Hib Hp. assert (Hb : recorded_l (s_log s) b).
    { apply (after_closed c (s_log s) a b L); [|exact Hp]. destruct Hia as [<-|Hia]; [exact Ha|].
      destruct (here_wait a Hia) as [rec Hw]. exact (w_after _ _ _ _ _ _ (a_wait _ _ _ _ _ _ _ _ here_act _ _ Hw)). }
    destruct Hib as [<-|Hib]; [exact (Hnr Hb)|exact (here_not_recorded b Hib Hb)]. }
  intros a b Hia Hib Hne. split; [exact (G a b Hia Hib)|]. split; [exact (G b a Hib Hia)|].
  destruct Hia as [<-|Hia], Hib as [<-|Hib].
  - destruct (Hne eq_refl).
  - apply Hu, here_kept, Hib.
  - intros r H1 H2. exact (Hu a (proj1 (here_kept a) Hia) r H2 H1).
  - destruct (here_wait a Hia) as [ra Wa]. destruct (here_wait b Hib) as [rb Wb].
    pose proof (a_disj _ _ _ _ _ _ _ _ here_act _ _ _ _ Wa Wb Hne) as D. intros r H1 H2. exact (D r H1 H2).
Qed.

Lemma here_found m : find_candidate (fuel_of c) (c_dag c) (s_ns s) (node_res c) (s_used s) (s_todo s) [] = Some (Some m) ->
  In m (s_todo s) /\ ready (c_dag c) (s_ns s) (node_res c) (s_used s) m.
Proof.
  intros Ef. pose proof (find_candidate_sound _ _ _ _ _ _ _ _ Ef) as [Hr [n0 [Hn0 Hpath]]]. split; [|exact Hr].
  destruct Hr as [[Hst Hdn] _].
  assert (Hin0 : In n0 (node_ids (c_dag c))) by (apply (here_todo n0 Hn0)).
  assert (Hm : In m (node_ids (c_dag c))).
  { apply clos_rt_rtn1 in Hpath. destruct Hpath as [|y x Hyx _]; [exact Hin0|]. apply (proj2 Hwf) in Hyx. apply Hyx. }
  apply (proj1 (act_where c _ _ _ _ _ _ _ here_act m)) in Hm as [H|[H|H]]; [exact H|exfalso|exfalso].
  - destruct (here_wait m H) as [rec Hw]. pose proof (w_flags _ _ _ _ _ _ (a_wait _ _ _ _ _ _ _ _ here_act _ _ Hw)) as F. unfold flags in F. congruence.
  - apply in_map_iff in H as (r & <- & H). destruct (a_rec _ _ _ _ _ _ _ _ here_act r H) as [F _]. congruence.
Qed.

Lemma here_finds : exists r, find_candidate (fuel_of c) (c_dag c) (s_ns s) (node_res c) (s_used s) (s_todo s) [] = Some r.
Proof.
  apply find_candidate_fuel; [intros e He; apply Hwf, He|intros n Hn; apply (here_todo n Hn)|]. unfold fuel_of.
  pose proof (unseen_le (node_ids (c_dag c)) []). unfold node_ids in *. rewrite map_length in *. lia.
Qed.
End Here.

Section Spare.
Variables (c : config) (k : nat) (z : Z).
Hypothesis Hwf : wf_dag (c_dag c).
Hypothesis Hj : 0 < c_threads c.
Hypothesis Hk : 0 < k.
Let c' := with_threads c k.

(** If a task is ready, fewer coroutines stay than there are threads. *)
Definition roomy_at (s : state) : Prop := forall kept n, s_pc s = Clean PMain kept [] ->
  In n (s_todo s) -> ready (c_dag c) (s_ns s) (node_res c) (s_used s) n ->
  List.length (map co_node kept) < Nat.min (c_threads c) k.

Lemma same_dispatch s kept : reachable c z s -> s_pc s = Clean PMain kept [] -> roomy_at s ->
  dispatch c' (set_coros s (compact (s_coros s) kept)) = dispatch c (set_coros s (compact (s_coros s) kept)).
Proof.
  intros HR Epc Hr. unfold dispatch.
  change (c_threads c') with k. change (c_dag c') with (c_dag c). change (node_res c') with (node_res c).
  change (fuel_of c') with (fuel_of c).
  change (s_coros (set_coros s (compact (s_coros s) kept))) with (compact (s_coros s) kept).
  change (s_ns (set_coros s (compact (s_coros s) kept))) with (s_ns s).
  change (s_used (set_coros s (compact (s_coros s) kept))) with (s_used s).
  change (s_todo (set_coros s (compact (s_coros s) kept))) with (s_todo s).
  pose proof (here_len c z s kept Hwf HR Epc) as L.
  destruct (here_finds c z s kept Hwf HR Epc) as [r Ef].
  destruct (Nat.eqb_spec k 0) as [?|_]; [lia|]. destruct (Nat.eqb_spec (c_threads c) 0) as [?|_]; [lia|].
  cbn [negb]. rewrite !Bool.andb_true_r, Ef.
  destruct r as [m|].
  - destruct (here_found c z s kept Hwf HR Epc m Ef) as [Hm Hrd]. pose proof (Hr kept m Epc Hm Hrd) as H.
    replace (k <=? List.length (compact (s_coros s) kept)) with false by (symmetry; apply Nat.leb_gt; lia).
    replace (c_threads c <=? List.length (compact (s_coros s) kept)) with false by (symmetry; apply Nat.leb_gt; lia).
    reflexivity.
  - cbv zeta. change (s_coros (set_coros s (compact (s_coros s) kept))) with (compact (s_coros s) kept).
    destruct (compact (s_coros s) kept) as [|x l].
    + cbn [List.length]. destruct (Nat.leb_spec k 0), (Nat.leb_spec (c_threads c) 0); reflexivity || lia.
    + destruct (k <=? List.length (x :: l)), (c_threads c <=? List.length (x :: l)); reflexivity.
Qed.

Lemma same_ctl s b : reachable c z s -> roomy_at s -> ctl c' s b = ctl c s b.
Proof.
  intros HR H. assert (Hd : deferred c' = deferred c).
  { unfold deferred. change (c_threads c') with k. destruct (Nat.eqb_spec k 0), (Nat.eqb_spec (c_threads c) 0); reflexivity || lia. }
  unfold ctl. destruct (s_pc s) as [|ph|ph kept rest|e rest|rest| | | |] eqn:Epc; try reflexivity.
  destruct rest as [|sl rest].
  - destruct b; [|reflexivity]. destruct ph; [|reflexivity]. f_equal. apply same_dispatch; assumption.
  - destruct (co_st (sl_coro sl)).
    + unfold run_first. rewrite Hd. reflexivity.
    + destruct b; [|reflexivity]. unfold run_poll. rewrite Hd. reflexivity.
Qed.

Lemma same_step s l : reachable c z s -> roomy_at s -> step c' s l = step c s l.
Proof.
  intros HR H. destruct l; cbn [step]; try reflexivity; try (apply same_ctl; assumption).
  rewrite (same_ctl s true HR H). reflexivity.
Qed.

Theorem same_run (P : state -> Prop) :
  (forall s0 ls s, P s -> reachable c z s0 -> run_labels c s0 ls = Some s -> roomy_at s0) ->
  forall ls s0 s, P s -> reachable c z s0 -> run_labels c s0 ls = Some s -> run_labels c' s0 ls = Some s.
Proof.
  intros HP. induction ls as [|l ls IH]; intros s0 s Hs HR E; [exact E|].
  assert (Hst : roomy_at s0) by exact (HP s0 (l :: ls) s Hs HR E). cbn [run_labels] in *.
  rewrite (same_step s0 l HR Hst). destruct (step c s0 l) as [s1|] eqn:E1; [|discriminate].
  apply (IH s1 s Hs); [eapply reach_step; eassumption|exact E].
Qed.
End Spare.

Theorem same_execution c k z ls s : wf_dag (c_dag c) -> 0 < c_threads c -> 0 < k ->
  run_labels c (init z) ls = Some s -> enough_for c (trace s) (Nat.min (c_threads c) k) ->
  run_labels (with_threads c k) (init z) ls = Some s.
Proof.
  intros Hwf Hj Hk E H.
  apply (same_run c k z Hwf Hj Hk (fun s => enough_for c (trace s) (Nat.min (c_threads c) k))) with (4 := E);
    [|exact H|exists []; reflexivity].
  clear ls s E H. intros s0 ls s HN HR E kept n Epc Hn Hrd.
  destruct (run_log c Hwf ls s0 s (r_inv c z s0 Hwf HR) E) as [nw El].
  apply (HN (trace s0) (rev nw) n); [unfold trace; rewrite El, rev_app_distr; reflexivity| | |].
  - exact (here_ready c z s0 kept Hwf HR Epc n Hn Hrd).
  - exact (here_nodup c z s0 kept Hwf HR Epc).
  - intros m. apply (here_kept c z s0 kept Hwf HR Epc m).
Qed.

Lemma wide_enough c k z ls s : wf_dag (c_dag c) -> 0 < c_threads c -> 0 < k ->
  width_at_most c (c_threads c) -> width_at_most c k ->
  run_labels c (init z) ls = Some s -> run_labels (with_threads c k) (init z) ls = Some s.
Proof.
  intros Hwf Hj Hk W1 W2 E. apply (same_run c k z Hwf Hj Hk (fun _ => True)) with (4 := E); [|exact I|exists []; reflexivity].
  clear ls s E. intros s0 ls s _ HR E kept n Epc Hn Hrd.
  destruct (here_todo c z s0 kept Hwf HR Epc n Hn) as (Hin & _ & _ & Hnk).
  assert (N : NoDup (n :: map co_node kept)) by (constructor; [exact Hnk|exact (here_nodup c z s0 kept Hwf HR Epc)]).
  assert (I : incl (n :: map co_node kept) (node_ids (c_dag c))).
  { intros x [<-|Hx]; [exact Hin|].
    apply (proj2 (act_where c _ _ _ _ _ _ _ (here_act c z s0 kept Hwf HR Epc) x)). right. left. exact Hx. }
  pose proof (here_apart c z s0 kept Hwf HR Epc n Hn Hrd) as A.
  pose proof (W1 _ N I A) as L1. pose proof (W2 _ N I A) as L2. cbn [List.length] in L1, L2. lia.
Qed.

Theorem spare_threads c k z ls : wf_dag (c_dag c) -> 0 < c_threads c -> 0 < k ->
  width_at_most c (c_threads c) -> width_at_most c k ->
  run_labels (with_threads c k) (init z) ls = run_labels c (init z) ls.
Proof.
  intros Hwf Hj Hk W1 W2.
  destruct (run_labels c (init z) ls) as [s|] eqn:Ej; [exact (wide_enough c k z ls s Hwf Hj Hk W1 W2 Ej)|].
  destruct (run_labels (with_threads c k) (init z) ls) as [s|] eqn:Ek; [|reflexivity].
  pose proof (wide_enough (with_threads c k) (c_threads c) z ls s Hwf Hk Hj W2 W1 Ek) as E.
  replace (with_threads (with_threads c k) (c_threads c)) with c in E by (destruct c; reflexivity). congruence.
Qed.

Lemma width_all c k : List.length (node_ids (c_dag c)) <= k -> width_at_most c k.
Proof. intros H l N I _. pose proof (NoDup_incl_length N I). lia. Qed.

(** Groups of tasks no two of which are apart. *)
Lemma width_groups c k (g : nid -> nat) :
  (forall n, In n (node_ids (c_dag c)) -> g n < k) ->
  (forall a b, In a (node_ids (c_dag c)) -> In b (node_ids (c_dag c)) -> a <> b -> g a = g b -> ~ apart c a b) ->
  width_at_most c k.
Proof.
  intros Hg Ha l N I A. rewrite <- (map_length g l), <- (seq_length k 0).
  apply NoDup_incl_length.
  - assert (G : forall x y, In x l -> In y l -> g x = g y -> x = y).
    { intros x y Hx Hy E. destruct (Nat.eq_dec x y) as [|Hne]; [assumption|].
      destruct (Ha x y (I x Hx) (I y Hy) Hne E (A x y Hx Hy Hne)). }
    clear -N G. induction l as [|x l IH]; [constructor|]. inversion N as [|? ? N1 N2]; subst. cbn. constructor.
    + intros H. apply in_map_iff in H as (y & E & Hy). rewrite (G y x (or_intror Hy) (or_introl eq_refl) E) in Hy. exact (N1 Hy).
    + apply IH; [exact N2|]. intros a b Ha Hb. apply G; right; assumption.
  - intros y Hy. apply in_map_iff in Hy as (x & <- & Hx). apply in_seq. pose proof (Hg x (I x Hx)). lia.
Qed.
