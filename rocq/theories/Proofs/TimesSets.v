(** The times in the record of an execution of a task set (C112). *)
From Coq Require Import Lia String.
From Verif Require Import Model.Common Model.Records Model.Jobs Model.TaskSet Model.Dag
     Model.Sched Model.Exec Model.Format Spec.Graph Spec.Trace Spec.Tasks Spec.Times
     Proofs.LogFacts Proofs.FormatFacts Proofs.Stamps Proofs.SetExec Proofs.BetterFacts Proofs.TimesFacts.
Open Scope nat_scope.
Open Scope list_scope.

Section Sets.
  Variables (st : store) (ts : task_set) (filt : string) (iv : tid -> inval_answer) (addr : tid -> nid) (c : config).
  Hypothesis X : execution_of st ts filt iv addr c.
  Variables (z : Z) (ls : list label) (s : state).
  Hypothesis E : run_labels c (init z) ls = Some s.
  Hypothesis Hm : monotone_clock z ls.

  Lemma set_apart ra rb x : In ra (records (trace s)) -> In rb (records (trace s)) -> was_executed ra -> was_executed rb ->
    r_task ra <> r_task rb -> In x (t_resources (st_get st (r_task ra))) -> In x (t_resources (st_get st (r_task rb))) ->
    (r_end ra <= r_start rb \/ r_end rb <= r_start ra)%Z.
  Proof.
    intros Ha Hb Xa Xb Hne X1 X2. destruct (exec_facts _ _ _ _ _ _ X) as (W & _ & _ & T & _ & Hinj & _ & Hc & _).
    assert (HR : reachable c z s) by (exists ls; exact E).
    destruct (rec_task _ _ _ _ _ _ _ _ X HR ra Ha) as [Sa Ea]. destruct (rec_task _ _ _ _ _ _ _ _ X HR rb Hb) as [Sb Eb].
    apply (resources_apart c z ls s ra rb x W E Hm Ha Hb Xa Xb).
    - rewrite Ea, Eb. intros Y. apply Hne. apply Hinj; assumption.
    - unfold node_res. rewrite Hc, Ea. rewrite (proj1 (proj2 (T _ Sa))). exact X1.
    - unfold node_res. rewrite Hc, Eb. rewrite (proj1 (proj2 (T _ Sb))). exact X2.
  Qed.

  Lemma reported_bounds er k : result s = RRecord er -> runtime_sum er = Some k ->
    (busy_time (er_runs er) <= Z.of_nat (Nat.max 1 (c_threads c)) * (k * 1000000000) /\
     forall rs, incl rs (er_runs er) -> each_after (fun b a => task_after st (r_task b) (r_task a)) rs ->
       busy_time rs <= k * 1000000000)%Z.
  Proof.
    intros R Hk. destruct (exec_facts _ _ _ _ _ _ X) as (W & _).
    assert (HR : reachable c z s) by (exists ls; exact E).
    pose proof (finished_runs c z s W HR er R) as Er.
    assert (Hne : er_runs er <> []) by (intros Y; unfold runtime_sum in Hk; rewrite Y in Hk; discriminate).
    destruct (runtime_sum_spec er Hne) as (k' & first & last & Hk' & Hf & Hl & Hb & Hc).
    rewrite Hk in Hk'. inversion Hk'. subst k'. clear Hk'.
    assert (Wt : within_times (r_start first) (r_end last) (records (trace s))).
    { intros r Hr. rewrite <- Er in Hr. apply Hb. exact Hr. }
    assert (Hle : (r_start first <= r_end last)%Z).
    { pose proof (proj1 (time_stamps c z ls s W E Hm) first) as G. rewrite <- Er in G. specialize (G Hf).
      destruct (Hb first Hf). lia. }
    split.
    - rewrite Er. pose proof (busy_bound c z ls s _ _ W E Hm Hle Wt) as G. nia.
    - intros rs Hi Ha. rewrite Er in Hi.
      assert (Ha' : each_after (fun b a => runs_after (c_dag c) (r_node b) (r_node a)) rs).
      { clear -X HR Hi Ha. induction rs as [|a [|b l] IH]; [exact I|exact I|]. destruct Ha as [H1 H2]. split.
        - destruct (rec_task _ _ _ _ _ _ _ _ X HR a (Hi a (or_introl eq_refl))) as [Sa Ea].
          destruct (rec_task _ _ _ _ _ _ _ _ X HR b (Hi b (or_intror (or_introl eq_refl)))) as [Sb Eb].
          rewrite Ea, Eb. apply (after_edge _ _ _ _ _ _ X); assumption.
        - apply IH; [intros y Hy; apply Hi; right; exact Hy|exact H2]. }
      pose proof (path_bound c z ls s _ _ rs W E Hm Hle Wt Hi Ha'). lia.
  Qed.
End Sets.
