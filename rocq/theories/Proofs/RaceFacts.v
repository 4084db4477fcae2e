(** Happens-before (C91 to C94). *)
From Coq Require Import Lia String Permutation Relation_Operators.
From Verif Require Import Model.Common Model.Records Model.Jobs Model.TaskSet Model.Dag
     Model.Sched Model.Exec Spec.Graph Spec.Trace Spec.Tasks Spec.JobUse Spec.Races
     Proofs.Sets Proofs.SchedFacts Proofs.InvalFacts Proofs.TraceFacts Proofs.ExecInv
     Proofs.ExecStep Proofs.ExecCtl Proofs.LogFacts Proofs.ExecProps Proofs.ExecProps2
     Proofs.StepCases Proofs.ExecProps3 Proofs.Ticks Proofs.SetExec.
Open Scope nat_scope.
Open Scope list_scope.

(** * An invariant of the history: resources are free when a task is taken up, and nothing
      happens between before_run and what follows from it *)

Definition neat_at (c : config) (b : list event) (e : event) : Prop :=
  match e with
  | EBeforeRun _ n => forall m, In (ELaunch m) b -> recorded_l b m \/ disjoint_res c n m
  | ELaunch n => exists er l, b = EBeforeRun er n :: l
  | EAfterRun _ r _ => In (ELaunch (r_node r)) b \/ exists er l, b = EBeforeRun er (r_node r) :: l
  | _ => True
  end.
Fixpoint neat (c : config) (log : list event) : Prop :=
  match log with [] => True | e :: l => neat_at c l e /\ neat c l end.

Lemma neat_app c a l : neat c (a ++ l) -> neat c l.
Proof. induction a as [|e a IH]; intros H; [exact H|]. apply IH, H. Qed.

Lemma taken_free c s ph kept sl rest n : wf_dag (c_dag c) -> Inv c s ->
  s_pc s = Clean ph kept (sl :: rest) -> sl_coro sl = Coro n CFresh ->
  forall m, In (ELaunch m) (s_log s) -> recorded_l (s_log s) m \/ disjoint_res c n m.
Proof.
  intros Hwf HI Epc Esl m Hm.
  pose proof (i_core _ _ HI) as K. pose proof (k_log _ _ _ _ K) as L.
  pose proof (i_pc _ _ HI) as P. unfold pc_inv in P. rewrite Epc in P. destruct P as [A _]. unfold act in A.
  assert (Hf : In (Coro n CFresh) (live s)).
  { unfold live. rewrite Epc. apply in_app_iff. right. cbn. left. exact Esl. }
  pose proof (launch_ids c _ _ L Hm) as Hid.
  apply (act_where c _ _ _ _ _ _ _ A) in Hid. destruct Hid as [H|[H|H]].
  - exfalso. destruct (a_idle _ _ _ _ _ _ _ _ A m (or_introl H)) as [_ [_ Hb]]. apply Hb.
    eapply launch_before; eassumption.
  - apply (act_lv_cases _ _) in H. destruct H as [H|[rec H]].
    + exfalso. destruct (a_idle _ _ _ _ _ _ _ _ A m (or_intror H)) as [_ [_ Hb]]. apply Hb.
      eapply launch_before; eassumption.
    + right. intros r H1 H2. destruct (a_fresh _ _ _ _ _ _ _ _ A n Hf) as [_ Hu].
      apply (Hu r H1). apply (a_used _ _ _ _ _ _ _ _ A). eauto.
  - left. apply (act_recorded c _ _ _ _ _ _ _ A). exact H.
Qed.

Definition plain (e : event) : Prop :=
  match e with EBeforeRun _ _ | ELaunch _ | EAfterRun _ _ _ => False | _ => True end.
Lemma neat_plain c e l : plain e -> neat c l -> neat c (e :: l).
Proof. intros H1 H2. split; [|exact H2]. destruct e; cbn in *; tauto. Qed.
Lemma neat_emits c es s : Forall plain es -> neat c (s_log s) -> neat c (s_log (emits s es)).
Proof.
  unfold emits. revert s. induction es as [|e es IH]; intros s H N; [exact N|].
  inversion H; subst. cbn [fold_left]. apply IH; [assumption|]. cbn. apply neat_plain; assumption.
Qed.
Lemma plain_map {A} (f : A -> event) l : (forall x, plain (f x)) -> Forall plain (map f l).
Proof. intros H. apply Forall_forall. intros e He. apply in_map_iff in He. destruct He as [x [<- _]]. apply H. Qed.
Lemma plain_inval e : plain (inval_to_event e).
Proof. destruct e; exact I. Qed.

Lemma neat_start c s : neat c (s_log s) ->
  (forall s0, neat c (s_log s0) -> neat c (s_log (main_top s0))) -> neat c (s_log (start c s)).
Proof.
  intros N Hm. unfold start. cbv zeta.
  set (todo := fold_left _ _ _). set (s1 := emits _ _).
  assert (N1 : neat c (s_log s1)) by (apply neat_emits; [apply plain_map; intros x; exact I|exact N]).
  clearbody s1. set (s2 := set_erec s1 _).
  assert (N2 : neat c (s_log s2)) by exact N1. clearbody s2.
  destruct (has_cycle _ _ _) as [[[|] cycles]|]; [| |exact N2].
  { cbn [s_log set_pc]. apply neat_emits; [apply plain_map; intros x; exact I|exact N2]. }
  set (s3 := emits s2 _).
  assert (N3 : neat c (s_log s3)) by (apply neat_emits; [apply plain_map; intros x; exact I|exact N2]).
  clearbody s3.
  destruct (inval_pass _ _ _ _ _ _) as [ns prop ev|n ev|n ev].
  - destruct (prop_loop _ _ _ _ _ _) as [ns' ev'| |]; [|exact N3|exact N3].
    apply Hm. cbn [s_log set_ns]. apply neat_emits; [apply plain_map, plain_inval|exact N3].
  - cbn [s_log set_pc]. apply neat_emits; [apply plain_map, plain_inval|exact N3].
  - cbn [s_log set_pc]. apply neat_emits; [apply plain_map, plain_inval|exact N3].
Qed.

Lemma neat_step0 c s l s' : wf_dag (c_dag c) -> Inv c s -> step c s l = Some s' ->
  (forall k, l <> LVisThrow k) -> neat c (s_log s) -> neat c (s_log s').
Proof.
  intros Hwf HI E Hnv N.
  assert (Hd : forall s0, neat c (s_log s0) -> neat c (s_log (drain_top s0))).
  { intros s0 H. unfold drain_top. destruct (s_coros s0); cbn; auto. }
  assert (Hm : forall s0, neat c (s_log s0) -> neat c (s_log (main_top s0))).
  { intros s0 H. unfold main_top. destruct (s_todo s0); [apply Hd, H|]. cbn. auto. }
  destruct l; cbn [step] in E.
  - unfold tick in E. destruct (s_pc s) as [|ph| | | | | | |] eqn:Epc; try discriminate.
    + inversion E; subst s'. apply neat_start; assumption.
    + destruct ph; inversion E; subst; auto.
    + inversion E; subst. exact N.
    + inversion E; subst. exact N.
  - destruct (s_pc s); try discriminate; inversion E; subst; exact N.
  - destruct (ctl_cases c s s' HI E) as
      [ph kept sl rest n s' Epc Esl _ Es|ph kept sl rest n s' Epc Esl _ _ Es
      |ph kept sl rest n s1 s' Epc Esl _ _ Es1 Es|ph kept sl rest n rec s' Epc Esl _ Es
      |ph kept sl rest n rec s' Epc Esl _ Es|ph kept sl rest n rec o s1 s2 s' Epc Esl Efut Es1 Es2 Es
      |kept s1 s' Epc Es1 Es|kept s1 s' Epc Es1 Es|e s' Epc Es|e sl rest s' Epc _ Es|s' Epc Es|sl rest s' Epc _ Es].
    + subst s'. cbn. split; [right; eauto|]. split; [|exact N]. eapply taken_free; eassumption.
    + subst s'. cbn. split; [right; eauto|]. split; [|exact N]. eapply taken_free; eassumption.
    + subst s' s1. cbn. split; [eauto|]. split; [|exact N]. eapply taken_free; eassumption.
    + subst s'. cbn. auto.
    + subst s'. cbn. auto.
    + assert (Hlog : s_log s' = EAfterRun (s_erec s) (finish_record rec (run_lambda o) (s_clock s)) (sl_node sl)
                       :: ERunLog n (rr_log (run_lambda o)) :: s_log s).
      { subst s' s1 s2. destruct (negb _); reflexivity. }
      rewrite Hlog. split; [|split; [exact I|exact N]]. left. right. cbn [r_node finish_record].
      pose proof (i_pc _ _ HI) as P. unfold pc_inv in P. rewrite Epc in P. destruct P as [A _]. unfold act in A.
      assert (Hw : In (Coro n (CWait rec)) (live s)).
      { unfold live. rewrite Epc. apply in_app_iff. right. cbn. left. exact Esl. }
      pose proof (a_wait _ _ _ _ _ _ _ _ A n rec Hw) as W. destruct (w_rec _ _ _ _ _ _ W) as [z0 ->]. cbn [r_node new_record].
      pose proof (k_fut _ _ _ _ (i_core _ _ HI) n) as F. rewrite Efut in F. apply F.
    + subst s1. destruct (dispatch_cases c s kept s' Hwf HI Epc Es) as [s' E1 E2 E3 E4|m0 s' E1 E2 E3 E4|s' E1 E2 E3];
        rewrite E1; exact N.
    + subst s1 s'. exact N.
    + subst s'. exact N.
    + subst s'. exact N.
    + subst s'. cbn. auto.
    + subst s'. exact N.
  - destruct (launchfail_cases c s s' HI E) as [ph [kept [sl [rest [n [Epc [Esl [_ [_ [El _]]]]]]]]]].
    rewrite El. cbn. split; [|exact N]. eapply taken_free; eassumption.
  - destruct (Hnv k eq_refl).
  - destruct (s_fut s n); try discriminate. inversion E; subst. cbn. auto.
  - destruct (s_fut s n); try discriminate. inversion E; subst. cbn. auto.
  - inversion E; subst. exact N.
Qed.

Lemma neat_step c s l s' : wf_dag (c_dag c) -> Inv c s -> step c s l = Some s' ->
  neat c (s_log s) -> neat c (s_log s').
Proof.
  intros Hwf HI E N. destruct l; try (eapply neat_step0; try eassumption; intros k0; discriminate).
  cbn [step] in E.
  set (o := match s_pc s with Created | Suspended _ => tick c s | Clean _ _ _ => ctl c s true | _ => None end) in E.
  destruct o as [s1|] eqn:Eo; [|discriminate].
  assert (E1 : step c s LTick = Some s1 \/ step c s LCtl = Some s1).
  { subst o. cbn [step]. destruct (s_pc s); try discriminate; auto. }
  assert (N1 : neat c (s_log s1)).
  { destruct E1 as [E1|E1]; (eapply neat_step0; [exact Hwf|exact HI|exact E1|intros k0; discriminate|exact N]). }
  assert (G : exists new, s_log s1 = new ++ s_log s).
  { destruct E1 as [E1|E1]; eapply step_log; eassumption. }
  destruct G as [new G]. destruct (visthrow_cases s s1 k s' E) as [es [rest [-> [es2 Hes]]]].
  cbn [s_log set_pc]. rewrite G, app_length in Hes.
  replace (List.length new + List.length (s_log s) - List.length (s_log s)) with (List.length new) in Hes by lia.
  rewrite firstn_app, firstn_all, Nat.sub_diag in Hes. cbn [firstn] in Hes. rewrite app_nil_r in Hes.
  rewrite emits_eq. cbn [s_log]. rewrite G in N1. apply (f_equal (@rev event)) in Hes.
  rewrite rev_involutive, rev_app_distr in Hes. rewrite Hes, <- app_assoc in N1. eapply neat_app, N1.
Qed.

Lemma neat_reach c z s : wf_dag (c_dag c) -> reachable c z s -> neat c (s_log s).
Proof.
  intros Hwf [ls E].
  assert (G : forall ls s0, Inv c s0 -> neat c (s_log s0) -> forall s, run_labels c s0 ls = Some s -> neat c (s_log s)).
  { clear -Hwf. induction ls as [|l ls IH]; intros s0 HI N s E; [inversion E; subst; exact N|].
    cbn in E. destruct (step c s0 l) as [s1|] eqn:E1; [|discriminate].
    eapply IH; [eapply step_inv|eapply neat_step|]; eassumption. }
  eapply G; [apply (inv_init c z)| |exact E]. exact I.
Qed.

(** * Positions *)

Section Positions.
Variables (c : config) (z : Z) (s : state).
Hypothesis Hwf : wf_dag (c_dag c).
Hypothesis HR : reachable c z s.
Let tr := trace s.
Notation "i ~> e" := (at_pos tr i e) (at level 70).

Definition past (j : nat) : list event := rev (firstn j tr).

Lemma pos_split j e : j ~> e -> tr = firstn j tr ++ e :: skipn (S j) tr.
Proof.
  unfold at_pos. generalize tr as l. clear. induction j as [|j IH]; intros [|x l] H; try discriminate.
  - inversion H. reflexivity.
  - cbn in *. f_equal. apply IH, H.
Qed.
Lemma in_firstn j e : In e (firstn j tr) -> exists i, i < j /\ i ~> e.
Proof.
  unfold at_pos. generalize tr as l. clear. induction j as [|j IH]; intros [|x l] H; try destruct H.
  - exists 0. split; [lia|]. subst. reflexivity.
  - destruct (IH l H) as [i [H1 H2]]. exists (S i). split; [lia|exact H2].
Qed.
Lemma firstn_in i j e : i < j -> i ~> e -> In e (firstn j tr).
Proof.
  unfold at_pos. generalize tr as l. clear. revert i. induction j as [|j IH]; intros i [|x l] Hi H; try lia.
  - destruct i; discriminate.
  - destruct i as [|i]; [inversion H; left; reflexivity|]. right. apply (IH i); [lia|exact H].
Qed.
Lemma past_in j e : In e (past j) <-> exists i, i < j /\ i ~> e.
Proof.
  unfold past. rewrite <- in_rev. split; [apply in_firstn|]. intros [i [H1 H2]]. eapply firstn_in; eassumption.
Qed.
Lemma pos_cond j e : j ~> e -> ev_cond c (past j) e.
Proof. intros H. apply (trace_at c z s Hwf HR _ _ _ (pos_split j e H)). Qed.
Lemma pos_ok j e : j ~> e -> ev_ok c (past j) e.
Proof. intros H. apply (trace_at c z s Hwf HR _ _ _ (pos_split j e H)). Qed.
Lemma past_log j e : j ~> e -> log_ok c (past j).
Proof. intros H. apply (trace_at c z s Hwf HR _ _ _ (pos_split j e H)). Qed.
Lemma pos_neat j e : j ~> e -> neat_at c (past j) e.
Proof.
  intros H. pose proof (neat_reach c z s Hwf HR) as N.
  rewrite (trace_split1 s _ _ _ (pos_split j e H)) in N. apply neat_app in N. apply N.
Qed.
Lemma pos_fun i e e' : i ~> e -> i ~> e' -> e = e'.
Proof. unfold at_pos. congruence. Qed.
Lemma past_head j e e' l : j ~> e -> past j = e' :: l -> exists i, j = S i /\ i ~> e'.
Proof.
  unfold past, at_pos. intros Hj E. destruct j as [|i]; [discriminate|]. exists i. split; [reflexivity|].
  assert (Hi : i < List.length tr).
  { assert (S i < List.length tr) by (apply nth_error_Some; congruence). lia. }
  destruct (nth_error tr i) as [x|] eqn:Ex; [|apply nth_error_None in Ex; lia].
  assert (G : firstn (S i) tr = firstn i tr ++ [x]).
  { clear -Ex. revert Ex. generalize tr as l. induction i as [|i IH]; intros [|y l] H; try discriminate.
    - inversion H. reflexivity.
    - cbn in H. change (firstn (S (S i)) (y :: l)) with (y :: firstn (S i) l). rewrite (IH l H). reflexivity. }
  rewrite G, rev_app_distr in E. cbn in E. congruence.
Qed.

(** ** Order of the events of a task *)

Lemma uniq_before i j er er' n : i ~> EBeforeRun er n -> j ~> EBeforeRun er' n -> i = j.
Proof.
  assert (G : forall i j er er', i < j -> i ~> EBeforeRun er n -> j ~> EBeforeRun er' n -> False).
  { intros i0 j0 e e' Hlt H1 H2. apply pos_cond in H2. destruct H2 as [_ [_ [_ [H2 _]]]]. apply H2.
    exists e. apply past_in. eauto. }
  intros H1 H2. destruct (Nat.lt_total i j) as [H|[H|H]]; [destruct (G _ _ _ _ H H1 H2)|exact H|destruct (G _ _ _ _ H H2 H1)].
Qed.
Lemma uniq_launch i j n : i ~> ELaunch n -> j ~> ELaunch n -> i = j.
Proof.
  assert (G : forall i j, i < j -> i ~> ELaunch n -> j ~> ELaunch n -> False).
  { intros i0 j0 Hlt H1 H2. apply pos_cond in H2. destruct H2 as [_ [H2 _]]. apply H2. apply past_in. eauto. }
  intros H1 H2. destruct (Nat.lt_total i j) as [H|[H|H]]; [destruct (G _ _ H H1 H2)|exact H|destruct (G _ _ H H2 H1)].
Qed.
Lemma uniq_begin i j n : i ~> EBegin n -> j ~> EBegin n -> i = j.
Proof.
  assert (G : forall i j, i < j -> i ~> EBegin n -> j ~> EBegin n -> False).
  { intros i0 j0 Hlt H1 H2. apply pos_cond in H2. destruct H2 as [_ [H2 _]]. apply H2. apply past_in. eauto. }
  intros H1 H2. destruct (Nat.lt_total i j) as [H|[H|H]]; [destruct (G _ _ H H1 H2)|exact H|destruct (G _ _ H H2 H1)].
Qed.
Lemma uniq_end i j n o o' : i ~> EEnd n o -> j ~> EEnd n o' -> i = j.
Proof.
  assert (G : forall i j o o', i < j -> i ~> EEnd n o -> j ~> EEnd n o' -> False).
  { intros i0 j0 o0 o1 Hlt H1 H2. apply pos_cond in H2. destruct H2 as [_ [H2 _]]. apply H2. exists o0. apply past_in. eauto. }
  intros H1 H2. destruct (Nat.lt_total i j) as [H|[H|H]]; [destruct (G _ _ _ _ H H1 H2)|exact H|destruct (G _ _ _ _ H H2 H1)].
Qed.

Lemma pos_recorded j n : recorded_l (past j) n ->
  exists i er r x, i < j /\ i ~> EAfterRun er r x /\ r_node r = n.
Proof.
  intros [r [H E]]. apply recs_In in H. destruct H as [er [x H]]. apply past_in in H.
  destruct H as [i [H1 H2]]. exists i, er, r, x. auto.
Qed.
Lemma recorded_pos i j er r x : i < j -> i ~> EAfterRun er r x -> recorded_l (past j) (r_node r).
Proof. intros H1 H2. exists r. split; [|reflexivity]. apply recs_In. exists er, x. apply past_in. eauto. Qed.

Lemma uniq_after i j er r x er' r' x' : i ~> EAfterRun er r x -> j ~> EAfterRun er' r' x' ->
  r_node r = r_node r' -> i = j.
Proof.
  assert (G : forall i j er r x er' r' x', i < j -> i ~> EAfterRun er r x -> j ~> EAfterRun er' r' x' -> r_node r = r_node r' -> False).
  { intros i0 j0 e0 r0 x0 e1 r1 x1 Hlt H1 H2 E. apply pos_cond in H2. destruct H2 as [_ [_ [_ [H2 _]]]]. apply H2.
    rewrite <- E. eapply recorded_pos; eassumption. }
  intros H1 H2 E. destruct (Nat.lt_total i j) as [H|[H|H]];
    [destruct (G _ _ _ _ _ _ _ _ H H1 H2 E)|exact H|destruct (G _ _ _ _ _ _ _ _ H H2 H1 (eq_sym E))].
Qed.

Lemma launch_pos l n : l ~> ELaunch n -> exists b er, l = S b /\ b ~> EBeforeRun er n.
Proof.
  intros H. destruct (pos_neat _ _ H) as [er [l0 E]]. destruct (past_head _ _ _ _ H E) as [b [H1 H2]]. eauto.
Qed.
Lemma begin_pos p n : p ~> EBegin n -> exists l, l < p /\ l ~> ELaunch n.
Proof. intros H. apply pos_cond in H. destruct H as [H _]. apply past_in, H. Qed.
Lemma end_pos p n o : p ~> EEnd n o -> exists l, l < p /\ l ~> EBegin n.
Proof. intros H. apply pos_cond in H. destruct H as [H _]. apply past_in, H. Qed.
Lemma runlog_pos p n t : p ~> ERunLog n t -> exists l o, l < p /\ l ~> EEnd n o.
Proof.
  intros H. apply pos_cond in H. destruct H as [_ [_ [_ [o [H _]]]]]. apply past_in in H. destruct H as [l H]. eauto.
Qed.
Lemma after_pos p er r x : p ~> EAfterRun er r x ->
  (exists b er', p = S b /\ b ~> EBeforeRun er' (r_node r) /\ forall l, l ~> ELaunch (r_node r) -> False) \/
  (exists g t, g < p /\ g ~> ERunLog (r_node r) t).
Proof.
  intros H. pose proof (pos_cond _ _ H) as [_ [_ [_ [_ [_ [Hr _]]]]]]. unfold rec_ok in Hr. destruct Hr as [_ [_ Hr]].
  assert (HL : ~ In (ELaunch (r_node r)) (past p) ->
    exists b er', p = S b /\ b ~> EBeforeRun er' (r_node r) /\ forall l, l ~> ELaunch (r_node r) -> False).
  { intros Hn. destruct (pos_neat _ _ H) as [G|[er0 [l0 E]]]; [destruct (Hn G)|].
    destruct (past_head _ _ _ _ H E) as [b [H1 H2]]. exists b, er0. split; [exact H1|]. split; [exact H2|].
    intros l Hl. destruct (Nat.lt_total l p) as [Hlt|[Heq|Hgt]].
    - apply Hn, past_in. eauto.
    - subst l. pose proof (pos_fun _ _ _ H Hl). discriminate.
    - pose proof (pos_cond _ _ Hl) as [_ [_ [Hx _]]]. apply Hx. eapply recorded_pos; eassumption. }
  destruct (r_status r).
  - right. destruct Hr as [_ [_ [_ [o [_ [_ [_ [Hg _]]]]]]]]. apply past_in in Hg. destruct Hg as [g Hg]. eauto.
  - left. apply HL. tauto.
  - left. apply HL. tauto.
  - right. destruct Hr as [_ [_ [_ [o [_ [_ [_ [Hg _]]]]]]]]. apply past_in in Hg. destruct Hg as [g Hg]. eauto.
Qed.

(** ** Happens-before *)

Notation hb := (happens_before c tr).
Lemma hb_lt i j : hb i j -> i < j.
Proof. intros H. induction H as [i j [H _]|]; [exact H|lia]. Qed.
Lemma hb_trans i j k : hb i j -> hb j k -> hb i k.
Proof. apply t_trans. Qed.
Lemma hb_client i j e e' : i < j -> i ~> e -> j ~> e' ->
  on_thread c e = Client -> on_thread c e' = Client -> hb i j.
Proof. intros H H1 H2 E1 E2. apply t_step. split; [exact H|]. exists e, e'. rewrite E1, E2. auto. Qed.
Lemma hb_sync i j e e' : i < j -> i ~> e -> j ~> e' -> synchronizes e e' -> hb i j.
Proof. intros H H1 H2 E. apply t_step. split; [exact H|]. exists e, e'. auto. Qed.

Definition job_of (e : event) (n : nid) : Prop :=
  match e with EBegin m | EEnd m _ => m = n | _ => False end.

Lemma job_launch p e n : p ~> e -> job_of e n -> exists l, l ~> ELaunch n /\ hb l p.
Proof.
  intros H Hj. destruct e; cbn in Hj; try contradiction; subst n0.
  - destruct (begin_pos _ _ H) as [l [H1 H2]]. exists l. split; [exact H2|]. eapply hb_sync; eauto. reflexivity.
  - destruct (end_pos _ _ _ H) as [q [H1 H2]]. destruct (begin_pos _ _ H2) as [l [H3 H4]]. exists l. split; [exact H4|].
    eapply hb_trans; [eapply (hb_sync l q); eauto; reflexivity|]. apply t_step. split; [exact H1|].
    eexists _, _. split; [exact H2|]. split; [exact H|]. left. reflexivity.
Qed.
Lemma job_before p e n : p ~> e -> job_of e n -> exists b er, b ~> EBeforeRun er n /\ hb b p.
Proof.
  intros H Hj. destruct (job_launch _ _ _ H Hj) as [l [H1 H2]]. destruct (launch_pos _ _ H1) as [b [er [-> H3]]].
  exists b, er. split; [exact H3|]. eapply hb_trans; [|exact H2]. eapply hb_client; eauto.
Qed.
Lemma job_runlog p e n g t : p ~> e -> job_of e n -> g ~> ERunLog n t -> hb p g.
Proof.
  intros H Hj Hg. destruct (runlog_pos _ _ _ Hg) as [q [o [H1 H2]]].
  assert (Hq : hb q g) by (eapply hb_sync; eauto; reflexivity).
  destruct e; cbn in Hj; try contradiction; subst n0.
  - destruct (end_pos _ _ _ H2) as [p' [H3 H4]]. pose proof (uniq_begin _ _ _ H H4). subst p'.
    eapply hb_trans; [|exact Hq]. apply t_step. split; [exact H3|]. eexists _, _. split; [exact H|].
    split; [exact H2|]. left. reflexivity.
  - pose proof (uniq_end _ _ _ _ _ H H2). subst q. exact Hq.
Qed.
Lemma job_after p e q er r x : p ~> e -> job_of e (r_node r) -> q ~> EAfterRun er r x -> hb p q.
Proof.
  intros H Hj Hq. destruct (after_pos _ _ _ _ Hq) as [[b [er' [-> [_ Hl]]]]|[g [t [H1 H2]]]].
  - destruct (job_launch _ _ _ H Hj) as [l [Hl' _]]. destruct (Hl _ Hl').
  - eapply hb_trans; [eapply job_runlog; eassumption|]. eapply hb_client; eauto.
Qed.
Lemma ready_unfinished p n o : p ~> EEnd n o -> forall q er r x, q ~> EAfterRun er r x -> r_node r = n -> p < q.
Proof.
  intros H q er r x Hq E. apply hb_lt. eapply job_after; [exact H| |exact Hq]. cbn. congruence.
Qed.

(** ** One task *)

Lemma concerns_before p e n : p ~> e -> concerns e n ->
  exists b er, b ~> EBeforeRun er n /\ (b = p \/ hb b p).
Proof.
  intros H Hc. destruct e; cbn in Hc; try contradiction.
  - subst n0. exists p, er. auto.
  - destruct (job_before _ _ n H Hc) as [b [er [H1 H2]]]. eauto.
  - destruct (job_before _ _ n H Hc) as [b [er [H1 H2]]]. eauto.
  - subst n0. destruct (runlog_pos _ _ _ H) as [q [o [H1 H2]]].
    destruct (job_before _ _ n H2 eq_refl) as [b [er [H3 H4]]]. exists b, er. split; [exact H3|]. right.
    eapply hb_trans; [exact H4|]. eapply hb_sync; eauto. reflexivity.
  - destruct (after_pos _ _ _ _ H) as [[b [er' [-> [H1 _]]]]|[g [t [H1 H2]]]].
    + rewrite Hc in H1. exists b, er'. split; [exact H1|]. right. eapply hb_client; eauto.
    + rewrite Hc in H2. destruct (runlog_pos _ _ _ H2) as [q [o [H3 H4]]].
      destruct (job_before _ _ n H4 eq_refl) as [b [er' [H5 H6]]]. exists b, er'. split; [exact H5|]. right.
      eapply hb_trans; [exact H6|]. eapply hb_trans; [eapply (hb_sync q g); eauto; reflexivity|].
      eapply hb_client; eauto.
Qed.
Lemma concerns_after p e n q er r x : p ~> e -> concerns e n -> q ~> EAfterRun er r x -> r_node r = n ->
  p = q \/ hb p q.
Proof.
  intros H Hc Hq E. destruct e; cbn in Hc; try contradiction.
  - right. subst n0. destruct (concerns_before _ _ n Hq E) as [b [er' [H1 H2]]].
    pose proof (uniq_before _ _ _ _ _ H H1). subst b. destruct H2 as [->|H2]; [|exact H2].
    pose proof (pos_fun _ _ _ H Hq). discriminate.
  - right. eapply job_after; [exact H| |exact Hq]. cbn. congruence.
  - right. eapply job_after; [exact H| |exact Hq]. cbn. congruence.
  - right. subst n0. destruct (runlog_pos _ _ _ H) as [k [o [H1 H2]]].
    destruct (after_pos _ _ _ _ Hq) as [[b [er' [_ [_ Hl]]]]|[g [t' [H3 H4]]]].
    + destruct (job_launch _ _ n H2 eq_refl) as [l [Hl' _]]. rewrite <- E in Hl'. destruct (Hl _ Hl').
    + rewrite E in H4. assert (p = g).
      { assert (G : forall i j t t', i < j -> i ~> ERunLog n t -> j ~> ERunLog n t' -> False).
        { intros i0 j0 t0 t1 Hlt G1 G2. apply pos_cond in G2. destruct G2 as [G2 _]. apply G2. exists t0.
          apply past_in. eauto. }
        destruct (Nat.lt_total p g) as [Hx|[Hx|Hx]];
          [destruct (G _ _ _ _ Hx H H4)|exact Hx|destruct (G _ _ _ _ Hx H4 H)]. }
      subst g. eapply hb_client; eauto.
  - left. eapply uniq_after; eauto. congruence.
Qed.

(** Within one task everything is ordered. *)
Lemma one_task i j e e' n : i < j -> i ~> e -> j ~> e' -> concerns e n -> concerns e' n -> hb i j.
Proof.
  intros Hlt H H' C C'.
  assert (Hw : forall p q f f', p ~> f -> q ~> f' -> job_of f n -> job_of f' n -> p < q -> hb p q).
  { intros p q f f' H1 H2 J1 J2 Hpq. apply t_step. split; [exact Hpq|]. exists f, f'. split; [exact H1|]. split; [exact H2|].
    left. destruct f; cbn in J1; try contradiction; destruct f'; cbn in J2; try contradiction; subst; reflexivity. }
  assert (Hc : forall f, concerns f n -> job_of f n \/ on_thread c f = Client).
  { intros f Hf. destruct f; cbn in *; auto; contradiction. }
  destruct (Hc _ C) as [J|T], (Hc _ C') as [J'|T'].
  - eapply Hw; eassumption.
  - (* job first *)
    destruct e'; cbn in C', T'; try contradiction.
    + subst n0. destruct (job_before _ _ _ H J) as [b [er0 [H1 H2]]]. pose proof (uniq_before _ _ _ _ _ H' H1). subst b.
      apply hb_lt in H2. lia.
    + eapply (Hw i j); eauto.
    + eapply (Hw i j); eauto.
    + subst n0. eapply job_runlog; eassumption.
    + rewrite <- C' in J. eapply job_after; eassumption.
  - (* job second *)
    destruct e; cbn in C, T; try contradiction.
    + subst n0. destruct (job_before _ _ _ H' J') as [b [er0 [H1 H2]]]. pose proof (uniq_before _ _ _ _ _ H H1). subst b. exact H2.
    + eapply (Hw i j); eauto.
    + eapply (Hw i j); eauto.
    + subst n0. pose proof (hb_lt _ _ (job_runlog _ _ _ _ _ H' J' H)). lia.
    + rewrite <- C in J'. pose proof (hb_lt _ _ (job_after _ _ _ _ _ _ H' J' H)). lia.
  - eapply hb_client; eassumption.
Qed.

(** ** Two tasks *)

Lemma before_records b er n m : b ~> EBeforeRun er n -> clos_trans nid (runs_after (c_dag c)) n m ->
  exists q er' r x, q < b /\ q ~> EAfterRun er' r x /\ r_node r = m.
Proof.
  intros H Ht. apply Operators_Properties.clos_trans_tn1 in Ht. induction Ht as [m Hm|m m' Hm _ IH].
  - apply pos_cond in H. destruct H as [_ [_ [_ [_ [_ [_ H]]]]]]. apply pos_recorded, H, Hm.
  - destruct IH as [q [er' [r [x [H1 [H2 H3]]]]]]. pose proof (pos_cond _ _ H2) as [_ [_ [_ [_ [Ha _]]]]].
    rewrite H3 in Ha. destruct (pos_recorded _ _ (Ha _ Hm)) as [q' [er1 [r1 [x1 [G1 [G2 G3]]]]]].
    exists q', er1, r1, x1. split; [lia|auto].
Qed.

Lemma through q er r x b er' n m i j e e' :
  q ~> EAfterRun er r x -> r_node r = m -> b ~> EBeforeRun er' n -> q < b ->
  i ~> e -> j ~> e' -> concerns e m -> concerns e' n -> hb i j.
Proof.
  intros Hq Em Hb Hlt Hi Hj Ci Cj.
  assert (Hqb : hb q b) by (eapply hb_client; eauto).
  destruct (concerns_before _ _ _ Hj Cj) as [b' [er1 [G1 G2]]]. pose proof (uniq_before _ _ _ _ _ Hb G1). subst b'.
  assert (Hqj : hb q j) by (destruct G2 as [<-|G2]; [exact Hqb|eapply hb_trans; eassumption]).
  destruct (concerns_after _ _ _ _ _ _ _ Hi Ci Hq Em) as [->|G]; [exact Hqj|eapply hb_trans; eassumption].
Qed.

Lemma ordered_tasks i j e e' m n : clos_trans nid (runs_after (c_dag c)) n m ->
  i ~> e -> j ~> e' -> concerns e m -> concerns e' n -> hb i j.
Proof.
  intros Ht Hi Hj Ci Cj. destruct (concerns_before _ _ _ Hj Cj) as [b [er [G1 _]]].
  destruct (before_records _ _ _ _ G1 Ht) as [q [er' [r [x [H1 [H2 H3]]]]]].
  eapply through; eassumption.
Qed.

Lemma sharing_tasks i j e e' m n r : m <> n -> In r (node_res c m) -> In r (node_res c n) ->
  i < j -> i ~> e -> j ~> e' -> concerns e m -> concerns e' n -> hb i j.
Proof.
  intros Hmn Hm Hn Hlt Hi Hj Ci Cj.
  assert (G : forall m n i j e e', m <> n -> In r (node_res c m) -> In r (node_res c n) ->
    i ~> e -> j ~> e' -> concerns e m -> concerns e' n ->
    forall bm bn em en, bm ~> EBeforeRun em m -> bn ~> EBeforeRun en n -> bm < bn -> hb i j).
  { clear -Hwf HR. intros m n i j e e' Hmn Hm Hn Hi Hj Ci Cj bm bn em en Bm Bn Hb.
    destruct (concerns_before _ _ _ Hj Cj) as [b' [er1 [G1 G2]]]. pose proof (uniq_before _ _ _ _ _ Bn G1). subst b'.
    assert (HL : forall l, l ~> ELaunch m -> hb i j).
    { intros l Hl. destruct (launch_pos _ _ Hl) as [b [er0 [-> Hb0]]]. pose proof (uniq_before _ _ _ _ _ Bm Hb0). subst b.
      assert (Hne : S bm <> bn) by (intros Hx; rewrite Hx in Hl; pose proof (pos_fun _ _ _ Hl Bn); discriminate).
      destruct (pos_neat _ _ Bn m) as [Hrec|Hd].
      - apply past_in. exists (S bm). split; [lia|exact Hl].
      - destruct (pos_recorded _ _ Hrec) as [q [er' [rr [x [Q1 [Q2 Q3]]]]]]. eapply (through q er' rr x bn en n m); eassumption.
      - destruct (Hd r Hn Hm). }
    assert (HC : i < bn -> on_thread c e = Client -> hb i j).
    { intros Hib T. assert (Hx : hb i bn) by (eapply hb_client; eauto).
      destruct G2 as [<-|G2]; [exact Hx|eapply hb_trans; eassumption]. }
    destruct e; cbn in Ci; try contradiction.
    - subst n0. pose proof (uniq_before _ _ _ _ _ Hi Bm). subst i. apply HC; [exact Hb|reflexivity].
    - destruct (job_launch _ _ m Hi Ci) as [l [Hl _]]. eapply HL, Hl.
    - destruct (job_launch _ _ m Hi Ci) as [l [Hl _]]. eapply HL, Hl.
    - subst n0. destruct (runlog_pos _ _ _ Hi) as [k [o [_ Hk]]].
      destruct (job_launch _ _ m Hk eq_refl) as [l [Hl _]]. eapply HL, Hl.
    - destruct (after_pos _ _ _ _ Hi) as [[b [er' [-> [H1 _]]]]|[g [t [H1 H2]]]].
      + rewrite Ci in H1. pose proof (uniq_before _ _ _ _ _ H1 Bm). subst b.
        assert (S bm <> bn) by (intros Hx; rewrite Hx in Hi; pose proof (pos_fun _ _ _ Hi Bn); discriminate).
        apply HC; [lia|reflexivity].
      + rewrite Ci in H2. destruct (runlog_pos _ _ _ H2) as [k [o [_ Hk]]].
        destruct (job_launch _ _ m Hk eq_refl) as [l [Hl _]]. eapply HL, Hl. }
  destruct (concerns_before _ _ _ Hi Ci) as [bm [em [Bm _]]].
  destruct (concerns_before _ _ _ Hj Cj) as [bn [en [Bn _]]].
  destruct (Nat.lt_total bm bn) as [H|[H|H]].
  - eapply (G m n); eassumption.
  - subst bn. pose proof (pos_fun _ _ _ Bm Bn) as E. congruence.
  - assert (Hx : hb j i) by (eapply (G n m); eauto). apply hb_lt in Hx. lia.
Qed.

(** ** Start and end *)

Definition begins (e : event) : Prop :=
  match e with EEnque _ | ECycle _ | EAsk _ | EInval _ _ _ | EDepInval _ _ => True | _ => False end.

Lemma start_past p e : p ~> e -> begins e -> forall x, In x (past p) -> is_startup x = true.
Proof.
  intros H Hs. apply pos_cond in H.
  assert (G : Forall (fun x => is_startup x = true) (past p)).
  { destruct e; cbn in Hs; try contradiction; cbn [ev_cond] in H.
    - destruct H as [_ [_ H]]. eapply Forall_impl; [|exact H]. intros []; cbn; congruence.
    - destruct H as [_ [H _]]. eapply Forall_impl; [|exact H]. intros []; cbn; congruence.
    - destruct H as [_ [_ [H _]]]. eapply Forall_impl; [|exact H]. intros []; cbn; congruence.
    - apply H.
    - destruct H as [_ [_ [H _]]]. eapply Forall_impl; [|exact H]. intros []; cbn; congruence. }
  rewrite Forall_forall in G. exact G.
Qed.

Lemma start_first i j e e' : i ~> e -> begins e -> j ~> e' -> (i < j -> hb i j) /\ (j < i -> hb j i).
Proof.
  intros Hi Hs Hj. assert (Ti : on_thread c e = Client) by (destruct e; try contradiction; reflexivity).
  assert (J : forall n, job_of e' n -> i < j -> hb i j).
  { intros n Hjob Hlt. destruct (job_launch _ _ _ Hj Hjob) as [l [Hl Hlj]].
    assert (Hil : i < l).
    { destruct (Nat.lt_total i l) as [H|[H|H]]; [exact H| |].
      - subst l. pose proof (pos_fun _ _ _ Hi Hl). subst e. destruct Hs.
      - assert (Hx : In (ELaunch n) (past i)) by (apply past_in; eauto).
        apply (start_past _ _ Hi Hs) in Hx. discriminate. }
    eapply hb_trans; [|exact Hlj]. eapply hb_client; eauto. }
  split; intros Hlt.
  - destruct e'; try (eapply J; [|exact Hlt]; reflexivity); eapply hb_client; eauto.
  - assert (Hx : In e' (past i)) by (apply past_in; eauto). apply (start_past _ _ Hi Hs) in Hx.
    destruct e'; try discriminate; eapply hb_client; eauto.
Qed.

Definition closes (e : event) : Prop := match e with EAfterExec _ | EDestroyed => True | _ => False end.

Lemma end_last i j e e' : i ~> e -> j ~> e' -> closes e' -> i < j -> hb i j.
Proof.
  intros Hi Hj Hc Hlt. assert (Tj : on_thread c e' = Client) by (destruct e'; try contradiction; reflexivity).
  destruct (on_thread c e) as [|n] eqn:Ti; [eapply hb_client; eauto|].
  assert (Hjob : job_of e n).
  { destruct e; cbn in *; try discriminate; destruct (c_threads c =? 0); congruence. }
  destruct e'; try contradiction.
  - pose proof (pos_cond _ _ Hj) as [_ Hall].
    destruct (job_launch _ _ _ Hi Hjob) as [l [Hl _]]. pose proof (pos_cond _ _ Hl) as [_ [_ [_ [_ [_ [Hid _]]]]]].
    destruct (pos_recorded _ _ (Hall n Hid)) as [q [er' [r [x [H1 [H2 H3]]]]]].
    eapply hb_trans; [eapply job_after; [exact Hi| |exact H2]; rewrite H3; exact Hjob|]. eapply hb_client; eauto.
  - destruct (job_launch _ _ _ Hi Hjob) as [l [Hl Hli]]. apply hb_lt in Hli.
    pose proof (pos_cond _ _ Hj n) as Hend. destruct Hend as [o Ho]; [apply past_in; exists l; split; [lia|exact Hl]|].
    apply past_in in Ho. destruct Ho as [k [H1 H2]].
    assert (Hk : hb k j) by (eapply hb_sync; eauto; exact I).
    destruct e; cbn in Hjob; try contradiction; subst n0.
    + destruct (end_pos _ _ _ H2) as [p' [H3 H4]]. pose proof (uniq_begin _ _ _ Hi H4). subst p'.
      eapply hb_trans; [|exact Hk]. apply t_step. split; [exact H3|]. eexists _, _. split; [exact Hi|].
      split; [exact H2|]. left. reflexivity.
    + pose proof (uniq_end _ _ _ _ _ Hi H2). subst k. exact Hk.
Qed.

Lemma end_nothing_after i j e e' : i ~> e -> closes e -> j ~> e' -> i < j -> hb i j.
Proof.
  intros Hi Hc Hj Hlt. destruct (pos_ok _ _ Hj) as [_ [Hd Ha]].
  assert (Hx : In e (past j)) by (apply past_in; eauto).
  destruct e; try contradiction.
  - rewrite (Ha _ Hx) in Hj. eapply hb_client; eauto.
Qed.

End Positions.

(** * The properties *)

Lemma job_visible : forall c z s a b i j o,
  wf_dag (c_dag c) -> reachable c z s -> clos_trans nid (runs_after (c_dag c)) a b ->
  at_pos (trace s) i (EEnd b o) -> at_pos (trace s) j (EBegin a) -> happens_before c (trace s) i j.
Proof. intros. eapply ordered_tasks; try eassumption; reflexivity. Qed.

Lemma resource_visible : forall c z s m n r i j,
  wf_dag (c_dag c) -> reachable c z s -> m <> n ->
  In r (node_res c m) -> In r (node_res c n) -> i < j ->
  at_pos (trace s) i (EBegin m) -> at_pos (trace s) j (EBegin n) ->
  exists k o, at_pos (trace s) k (EEnd m o) /\ happens_before c (trace s) k j.
Proof.
  intros c z s m n r i j Hwf HR Hmn Hm Hn Hlt Hi Hj.
  assert (Hx : happens_before c (trace s) i j) by (eapply sharing_tasks; try eassumption; reflexivity).
  (* m's record comes first, so m's job has ended *)
  destruct (concerns_before c z s Hwf HR i _ m Hi eq_refl) as [bm [em [Bm Om]]].
  destruct (concerns_before c z s Hwf HR j _ n Hj eq_refl) as [bn [en [Bn On]]].
  assert (Hb : bm < bn).
  { destruct (Nat.lt_total bm bn) as [H|[H|H]]; [exact H| |].
    - subst bn. pose proof (pos_fun s _ _ _ Bm Bn) as E. congruence.
    - exfalso.
      assert (Hy : happens_before c (trace s) j bm).
      { (* n was taken up before m: all of n is before m *)
        destruct (job_launch c z s Hwf HR j _ n Hj eq_refl) as [l [Hl _]].
        destruct (launch_pos c z s Hwf HR _ _ Hl) as [b [er0 [-> Hb0]]].
        pose proof (uniq_before c z s Hwf HR _ _ _ _ _ Bn Hb0). subst b.
        assert (Hne : S bn <> bm) by (intros Hz; rewrite Hz in Hl; pose proof (pos_fun s _ _ _ Hl Bm); discriminate).
        destruct (pos_neat c z s Hwf HR _ _ Bm n) as [Hrec|Hd].
        + apply past_in. exists (S bn). split; [lia|exact Hl].
        + destruct (pos_recorded s _ _ Hrec) as [q [er' [rr [x [Q1 [Q2 Q3]]]]]].
          eapply (through c z s Hwf HR q er' rr x bm em m n); eauto; reflexivity.
        + destruct (Hd r Hm Hn). }
      apply hb_lt in Hy. destruct Om as [<-|Om]; [|apply hb_lt in Om]; lia. }
  destruct (job_launch c z s Hwf HR i _ m Hi eq_refl) as [l [Hl _]].
  destruct (launch_pos c z s Hwf HR _ _ Hl) as [b [er0 [-> Hb0]]].
  pose proof (uniq_before c z s Hwf HR _ _ _ _ _ Bm Hb0). subst b.
  assert (Hne : S bm <> bn) by (intros Hz; rewrite Hz in Hl; pose proof (pos_fun s _ _ _ Hl Bn); discriminate).
  destruct (pos_neat c z s Hwf HR _ _ Bn m) as [Hrec|Hd].
  - apply past_in. exists (S bm). split; [lia|exact Hl].
  - destruct (pos_recorded s _ _ Hrec) as [q [er' [rr [x [Q1 [Q2 Q3]]]]]].
    destruct (after_pos c z s Hwf HR _ _ _ _ Q2) as [[b [er1 [_ [_ Hnl]]]]|[g [t [G1 G2]]]].
    + rewrite Q3 in Hnl. destruct (Hnl _ Hl).
    + rewrite Q3 in G2. destruct (runlog_pos c z s Hwf HR _ _ _ G2) as [k [o [K1 K2]]].
      exists k, o. split; [exact K2|]. eapply (through c z s Hwf HR q er' rr x bn en n m); eauto; reflexivity.
  - destruct (Hd r Hn Hm).
Qed.

Lemma check_visible : forall c z s m n i j,
  wf_dag (c_dag c) -> reachable c z s ->
  at_pos (trace s) i (EAsk m) -> at_pos (trace s) j (EBegin n) -> happens_before c (trace s) i j.
Proof.
  intros c z s m n i j Hwf HR Hi Hj.
  destruct (Nat.lt_total i j) as [H|[H|H]].
  - eapply (start_first c z s Hwf HR i j); eauto; exact I.
  - subst j. pose proof (pos_fun s _ _ _ Hi Hj). discriminate.
  - assert (Hx : In (EBegin n) (past s i)) by (apply past_in; eauto).
    apply (start_past c z s Hwf HR _ _ Hi I) in Hx. discriminate.
Qed.

Lemma before_visible : forall c z s er n i j,
  wf_dag (c_dag c) -> reachable c z s ->
  at_pos (trace s) i (EBeforeRun er n) -> at_pos (trace s) j (EBegin n) -> happens_before c (trace s) i j.
Proof.
  intros c z s er n i j Hwf HR Hi Hj. destruct (job_before c z s Hwf HR _ _ n Hj eq_refl) as [b [er' [H1 H2]]].
  rewrite (uniq_before c z s Hwf HR _ _ _ _ _ Hi H1). exact H2.
Qed.

Lemma end_visible : forall c z s n o i j e,
  wf_dag (c_dag c) -> reachable c z s ->
  at_pos (trace s) i (EEnd n o) -> at_pos (trace s) j e ->
  (match e with ERunLog m _ => m = n | EAfterRun _ r _ => r_node r = n | EAfterExec _ | EDestroyed => True | _ => False end) ->
  happens_before c (trace s) i j.
Proof.
  intros c z s n o i j e Hwf HR Hi Hj He. destruct e; try contradiction.
  - subst n0. eapply job_runlog; eauto. reflexivity.
  - eapply job_after; eauto. cbn. congruence.
  - assert (i < j).
    { destruct (Nat.lt_total i j) as [H|[H|H]]; [exact H| |].
      - subst j. pose proof (pos_fun s _ _ _ Hi Hj). discriminate.
      - destruct (pos_ok c z s Hwf HR _ _ Hi) as [_ [_ Ha]]. exfalso.
        assert (Hx : In (EAfterExec er) (past s i)) by (apply past_in; eauto). apply Ha in Hx. discriminate. }
    eapply end_last; eauto; exact I.
  - assert (i < j).
    { destruct (Nat.lt_total i j) as [H|[H|H]]; [exact H| |].
      - subst j. pose proof (pos_fun s _ _ _ Hi Hj). discriminate.
      - destruct (pos_ok c z s Hwf HR _ _ Hi) as [_ [Ha _]]. exfalso. apply Ha, past_in. eauto. }
    eapply end_last; eauto; exact I.
Qed.

Lemma accesses_ordered loc (touches : nid -> loc -> access -> Prop) c z s i j e e' l k k' :
  wf_dag (c_dag c) -> reachable c z s -> disciplined loc touches c -> i < j ->
  at_pos (trace s) i e -> at_pos (trace s) j e' ->
  may_access loc touches e l k -> may_access loc touches e' l k' -> conflict k k' ->
  happens_before c (trace s) i j.
Proof.
  intros Hwf HR D Hlt Hi Hj Ai Aj Hc.
  destruct Ai as [F|[m [Cm Tm]]].
  - destruct e; try contradiction; try (eapply (start_first c z s Hwf HR i j); eauto; exact I);
      eapply (end_nothing_after c z s Hwf HR i j); eauto; exact I.
  - destruct Aj as [F|[n [Cn Tn]]].
    + destruct e'; try contradiction; try (eapply (start_first c z s Hwf HR j i); eauto; exact I);
        eapply (end_last c z s Hwf HR i j); eauto; exact I.
    + destruct (Nat.eq_dec m n) as [->|Hmn]; [eapply one_task; eauto|].
      destruct (D m n l k k' Hmn Tm Tn Hc) as [H|[H|[r [H1 H2]]]].
      * assert (Hx : happens_before c (trace s) j i) by (eapply ordered_tasks; eauto). apply hb_lt in Hx. lia.
      * eapply ordered_tasks; eauto.
      * eapply (sharing_tasks c z s Hwf HR i j e e' m n r); eauto.
Qed.

Lemma no_data_race : forall (loc : Type) (touches : nid -> loc -> access -> Prop) c z s i j,
  wf_dag (c_dag c) -> reachable c z s -> disciplined loc touches c ->
  ~ data_race loc touches c (trace s) i j.
Proof.
  intros loc touches c z s i j Hwf HR D (e & e' & l & k & k' & Hi & Hj & Hij & Ai & Aj & Hc & N1 & N2).
  destruct (Nat.lt_total i j) as [H|[H|H]].
  - apply N1. eapply accesses_ordered; eassumption.
  - exact (Hij H).
  - apply N2. eapply (accesses_ordered loc touches c z s j i); eauto. destruct Hc; [right|left]; assumption.
Qed.

Lemma job_object_ordered : forall c z s i j e e' n n' k k',
  wf_dag (c_dag c) -> reachable c z s ->
  (forall a b, In a (node_ids (c_dag c)) -> In b (node_ids (c_dag c)) ->
     node_task (c_dag c) a = node_task (c_dag c) b -> a = b) ->
  i < j -> at_pos (trace s) i e -> at_pos (trace s) j e' ->
  job_use e = Some (n, k) -> job_use e' = Some (n', k') ->
  node_task (c_dag c) n = node_task (c_dag c) n' -> happens_before c (trace s) i j.
Proof.
  intros c z s i j e e' n n' k k' Hwf HR Hnd Hlt Hi Hj U U' Et.
  assert (Hs : forall e0, begins e0 \/ ~ begins e0) by (intros []; cbn; tauto).
  destruct (Hs e) as [B|B]; [eapply (start_first c z s Hwf HR i j); eauto|].
  destruct (Hs e') as [B'|B']; [eapply (start_first c z s Hwf HR j i); eauto|].
  assert (J : job_of e n) by (destruct e; cbn in *; try discriminate; try tauto; congruence).
  assert (J' : job_of e' n') by (destruct e'; cbn in *; try discriminate; try tauto; congruence).
  assert (Hid : forall p f m, at_pos (trace s) p f -> job_of f m -> In m (node_ids (c_dag c))).
  { intros p f m Hp Hf. destruct (job_launch c z s Hwf HR _ _ _ Hp Hf) as [l [Hl _]].
    eapply launch_ids; [eapply (r_log c z s Hwf HR)|]. apply trace_in. eapply nth_error_In, Hl. }
  assert (E : n = n').
  { pose proof (Hid _ _ _ Hi J) as H1. pose proof (Hid _ _ _ Hj J') as H2.
    apply Hnd; assumption. }
  subst n'. apply t_step. split; [exact Hlt|]. exists e, e'. split; [exact Hi|]. split; [exact Hj|]. left.
  destruct e; cbn in J; try contradiction; destruct e'; cbn in J'; try contradiction; subst; reflexivity.
Qed.

(** No event is after one that nothing of its thread, and nothing synchronizing, follows. *)
Lemma nothing_after c tr i j :
  (forall k e e', i < k -> at_pos tr i e -> at_pos tr k e' -> on_thread c e <> on_thread c e' /\ ~ synchronizes e e') ->
  ~ happens_before c tr i j.
Proof.
  intros H Hb. apply Operators_Properties.clos_trans_t1n in Hb.
  assert (G : exists k, precedes c tr i k) by (destruct Hb; eauto).
  destruct G as [k [Hlt [e [e' [H1 [H2 [H3|H3]]]]]]]; destruct (H k e e' Hlt H1 H2); contradiction.
Qed.

(** ** Executions of task sets *)

Section OfSet.
Variables (st : store) (ts : task_set) (filt : string) (iv : tid -> inval_answer) (addr : tid -> nid) (c : config).
Hypothesis Hexec : execution_of st ts filt iv addr c.

Lemma set_after a b : selected_after st ts filt a b -> runs_after (c_dag c) (addr a) (addr b).
Proof.
  intros [Ha [Hb H]]. destruct (exec_facts _ _ _ _ _ _ Hexec) as (_ & _ & _ & _ & _ & _ & He & _).
  apply He. exists a, b. split; [exact Ha|]. split; [exact Hb|]. split; [reflexivity|]. split; [reflexivity|].
  destruct H as [H|H]; [left; exact H|right; left; auto].
Qed.
Lemma set_after_trans a b : clos_trans tid (selected_after st ts filt) a b ->
  clos_trans nid (runs_after (c_dag c)) (addr a) (addr b).
Proof.
  induction 1 as [a b H|a b d _ IH1 _ IH2]; [apply t_step, set_after, H|eapply t_trans; eassumption].
Qed.
Lemma set_res a : selected st ts filt a -> node_res c (addr a) = t_resources (st_get st a).
Proof.
  intros Ha. destruct (exec_facts _ _ _ _ _ _ Hexec) as (_ & _ & _ & Hn & _ & _ & _ & Et & _).
  unfold node_res. rewrite Et. destruct (Hn a Ha) as [_ [-> _]]. reflexivity.
Qed.

Lemma set_visible z s a b i j o : reachable c z s -> clos_trans tid (selected_after st ts filt) a b ->
  at_pos (trace s) i (EEnd (addr b) o) -> at_pos (trace s) j (EBegin (addr a)) -> happens_before c (trace s) i j.
Proof.
  intros HR H. apply set_after_trans in H. eapply job_visible; [apply (exec_facts _ _ _ _ _ _ Hexec)|exact HR|exact H].
Qed.

Lemma set_resource_visible z s a b r i j : reachable c z s ->
  selected st ts filt a -> selected st ts filt b -> a <> b ->
  In r (t_resources (st_get st a)) -> In r (t_resources (st_get st b)) -> i < j ->
  at_pos (trace s) i (EBegin (addr a)) -> at_pos (trace s) j (EBegin (addr b)) ->
  exists k o, at_pos (trace s) k (EEnd (addr a) o) /\ happens_before c (trace s) k j.
Proof.
  intros HR Ha Hb Hab Ra Rb. destruct (exec_facts _ _ _ _ _ _ Hexec) as (Hwf & _ & _ & _ & _ & Hinj & _).
  rewrite <- set_res in Ra by exact Ha. rewrite <- set_res in Rb by exact Hb.
  eapply resource_visible; eauto.
Qed.

Lemma set_no_race (loc : Type) (touches : tid -> loc -> access -> Prop) z s i j : reachable c z s ->
  (forall a b l k k', selected st ts filt a -> selected st ts filt b -> a <> b ->
     touches a l k -> touches b l k' -> conflict k k' ->
     clos_trans tid (selected_after st ts filt) a b \/ clos_trans tid (selected_after st ts filt) b a \/
     exists r, In r (t_resources (st_get st a)) /\ In r (t_resources (st_get st b))) ->
  ~ data_race loc (fun n l k => exists t, selected st ts filt t /\ n = addr t /\ touches t l k) c (trace s) i j.
Proof.
  intros HR H. apply (no_data_race loc _ c z s i j); [apply (exec_facts _ _ _ _ _ _ Hexec)|exact HR|].
  intros m n l k k' Hmn (a & Sa & -> & Ta) (b & Sb & -> & Tb) Hc.
  assert (Hab : a <> b) by congruence.
  destruct (H a b l k k' Sa Sb Hab Ta Tb Hc) as [G|[G|[r [G1 G2]]]].
  - left. apply set_after_trans, G.
  - right; left. apply set_after_trans, G.
  - right; right. exists r. rewrite !set_res by assumption. auto.
Qed.

Lemma set_job_object z s i j e e' n n' k k' : reachable c z s ->
  i < j -> at_pos (trace s) i e -> at_pos (trace s) j e' ->
  job_use e = Some (n, k) -> job_use e' = Some (n', k') ->
  node_task (c_dag c) n = node_task (c_dag c) n' -> happens_before c (trace s) i j.
Proof.
  intros HR. destruct (exec_facts _ _ _ _ _ _ Hexec) as (Hwf & _ & _ & Hn & Hex & Hinj & _).
  apply (job_object_ordered c z s); [exact Hwf|exact HR|].
  intros a b Ha Hb E. destruct (Hex a Ha) as [t [St ->]]. destruct (Hex b Hb) as [u [Su ->]].
  destruct (Hn t St) as [_ [E1 _]]. destruct (Hn u Su) as [_ [E2 _]]. congruence.
Qed.
End OfSet.

(** ** Concrete histories *)

Definition no_job_event (n : nid) (e : event) : bool :=
  match e with EBegin m | EEnd m _ => negb (m =? n) | _ => true end.

Lemma still_running c tr i n j : c_threads c <> 0 -> at_pos tr i (EBegin n) ->
  forallb (no_job_event n) (skipn (S i) tr) = true -> ~ happens_before c tr i j.
Proof.
  intros Ht Hi Hf. apply nothing_after. intros k e e' Hlt He Hk.
  unfold at_pos in *. rewrite Hi in He. inversion He; subst e. cbn [on_thread synchronizes].
  destruct (Nat.eqb_spec (c_threads c) 0) as [E|_]; [contradiction|]. split; [|destruct e'; auto].
  assert (Hin : In e' (skipn (S i) tr)).
  { apply nth_error_In with (k - S i). rewrite <- Hk.
    replace k with (S i + (k - S i)) at 2 by lia. clear. generalize (k - S i) as d. generalize (S i) as p. revert tr.
    induction tr as [|x tr IH]; intros [|p] d; try reflexivity; [destruct d; reflexivity|]. cbn. apply IH. }
  rewrite forallb_forall in Hf. apply Hf in Hin.
  destruct e'; cbn; try discriminate; destruct (Nat.eqb_spec (c_threads c) 0) as [E|_]; try contradiction;
    cbn in Hin; destruct (Nat.eqb_spec n0 n) as [E|E]; try discriminate; congruence.
Qed.

Lemma not_back c tr i j : i < j -> ~ happens_before c tr j i.
Proof.
  intros H Hb. assert (G : forall a b, happens_before c tr a b -> a < b).
  { intros a b Hab. induction Hab as [a b [Hab _]|]; [exact Hab|lia]. }
  apply G in Hb. lia.
Qed.
