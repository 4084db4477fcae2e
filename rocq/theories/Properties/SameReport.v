(** Executing the same again: C110. *)
From Coq Require Import String Permutation Lia.
From Verif Require Import Model.Common Model.Records Model.Jobs Model.TaskSet Model.Dag Model.Sched Model.Exec Model.ExecSet
     Model.Text Model.Report Spec.Graph Spec.Trace Spec.Tasks Spec.Xml Spec.Report Spec.SameReport
     Properties.Demo Properties.TaskSets Proofs.DemoFacts Proofs.BuildProps Proofs.SameReportFacts.
Open Scope string_scope.
Open Scope nat_scope.
Open Scope list_scope.

(** * C110 Two executions of the same tasks whose jobs do the same report the same *)

(** Any number of threads, any addresses and map orders, any interleaving: the returned
    records differ at most in the order of the runs and in their times. *)
Theorem C110_same_record : forall st ts filt iv addr1 addr2 c1 c2 z1 z2 s1 s2 er1 er2,
  execution_of st ts filt iv addr1 c1 -> execution_of st ts filt iv addr2 c2 ->
  reachable c1 z1 s1 -> reachable c2 z2 s2 ->
  (forall t o1 o2, In (EEnd (addr1 t) o1) (trace s1) -> In (EEnd (addr2 t) o2) (trace s2) ->
     selected st ts filt t -> o1 = o2) ->
  result s1 = RRecord er1 -> result s2 = RRecord er2 -> same_exec_record er1 er2.
Proof. exact set_same_record. Qed.
Print Assumptions C110_same_record.

(** So do the JUnit reports ... *)
Theorem C110_same_junit : forall st ts filt iv addr1 addr2 c1 c2 z1 z2 s1 s2 er1 er2 fmt_secs now1 now2 suite,
  execution_of st ts filt iv addr1 c1 -> execution_of st ts filt iv addr2 c2 ->
  reachable c1 z1 s1 -> reachable c2 z2 s2 ->
  (forall t o1 o2, In (EEnd (addr1 t) o1) (trace s1) -> In (EEnd (addr2 t) o2) (trace s2) ->
     selected st ts filt t -> o1 = o2) ->
  result s1 = RRecord er1 -> result s2 = RRecord er2 ->
  (exists t, selected st ts filt t) ->
  plain_text suite -> plain_text now1 -> plain_text now2 -> (forall d, plain_text (fmt_secs d)) ->
  (forall p t, holds ts p t -> plain_text (full_name p)) ->
  exists t1 t2 x1 x2,
    generate_junit_xml fmt_secs now1 suite er1 = Some t1 /\ parse_xml t1 = Some x1 /\
    generate_junit_xml fmt_secs now2 suite er2 = Some t2 /\ parse_xml t2 = Some x2 /\
    same_suite x1 x2.
Proof. exact set_same_junit. Qed.
Print Assumptions C110_same_junit.

(** ... and the JSON values. *)
Theorem C110_same_json : forall st ts filt iv addr1 addr2 c1 c2 z1 z2 s1 s2 er1 er2 fmt_tp,
  execution_of st ts filt iv addr1 c1 -> execution_of st ts filt iv addr2 c2 ->
  reachable c1 z1 s1 -> reachable c2 z2 s2 ->
  (forall t o1 o2, In (EEnd (addr1 t) o1) (trace s1) -> In (EEnd (addr2 t) o2) (trace s2) ->
     selected st ts filt t -> o1 = o2) ->
  result s1 = RRecord er1 -> result s2 = RRecord er2 ->
  same_json_report (json_exec fmt_tp er1) (json_exec fmt_tp er2).
Proof. exact set_same_json. Qed.
Print Assumptions C110_same_json.

(** A graph made by hand. *)
Theorem C110_graphs : forall c1 c2 z1 z2 s1 s2 er1 er2,
  wf_dag (c_dag c1) -> requires_after (c_dag c1) -> c_dag c2 = c_dag c1 ->
  (forall n, job_invalidated c1 n <-> job_invalidated c2 n) ->
  reachable c1 z1 s1 -> reachable c2 z2 s2 ->
  (forall n o1 o2, In (EEnd n o1) (trace s1) -> In (EEnd n o2) (trace s2) -> o1 = o2) ->
  result s1 = RRecord er1 -> result s2 = RRecord er2 -> same_exec_record er1 er2.
Proof. exact graph_same_record. Qed.
Print Assumptions C110_graphs.

(** Two threads; and deferred, the nodes at descending addresses, the maps read backwards.
    lib fails in both.  The runs are in different orders. *)
Definition down (t : tid) : nid := 20 - t.
Definition set_again : config :=
  match exec_set demo_store demo_set 0 "" demo_inval down (@rev _) (@rev _) with
  | Built c => c
  | _ => demo 2
  end.
Definition lib_fails_again (n : nid) : job_outcome := lib_fails (20 - n).
Definition again_end : state := go set_again (drive set_again lib_fails_again 60 (init 0)).

Lemma exec_again : execution_of demo_store demo_set "" demo_inval down set_again.
Proof.
  exists 0, (@rev _), (@rev _).
  split; [intros l; apply Permutation_sym, Permutation_rev|]. split; [intros l; apply Permutation_sym, Permutation_rev|].
  split; [exact demo_ordered|]. split; [exact demo_owned|]. split; [|vm_compute; reflexivity].
  split; [|intros a _ []]. intros a b Ha Hb E. apply selected_only in Ha. apply selected_only in Hb. unfold down in E.
  cbn in Ha, Hb. lia.
Qed.

Definition ends_as (o : nid -> job_outcome) (e : event) : Prop :=
  match e with EEnd n x => x = o n | _ => True end.
Lemma ends_demo : Forall (ends_as lib_fails) (trace (set_end lib_fails)).
Proof. vm_compute. repeat (constructor; [first [exact I|reflexivity]|]). constructor. Qed.
Lemma ends_again : Forall (ends_as lib_fails_again) (trace again_end).
Proof. vm_compute. repeat (constructor; [first [exact I|reflexivity]|]). constructor. Qed.
Lemma same_ends : forall t o1 o2, In (EEnd t o1) (trace (set_end lib_fails)) ->
  In (EEnd (down t) o2) (trace again_end) -> selected demo_store demo_set "" t -> o1 = o2.
Proof.
  intros t o1 o2 H1 H2 Ht.
  pose proof (proj1 (Forall_forall _ _) ends_demo _ H1) as G1. pose proof (proj1 (Forall_forall _ _) ends_again _ H2) as G2.
  cbn [ends_as] in G1, G2. rewrite G1, G2. clear H1 H2 G1 G2. unfold lib_fails_again, down.
  apply selected_only in Ht. cbn in Ht. replace (20 - (20 - t)) with t by lia. reflexivity.
Qed.

Ltac plain := repeat (split; [split; [discriminate|split; [discriminate|split; discriminate]]|]); exact I.

Example C110_case : exists er1 er2,
  execution_of demo_store demo_set "" demo_inval (fun t => t) set_demo /\
  execution_of demo_store demo_set "" demo_inval down set_again /\
  reachable set_demo 0 (set_end lib_fails) /\ reachable set_again 0 again_end /\
  (forall t o1 o2, In (EEnd t o1) (trace (set_end lib_fails)) -> In (EEnd (down t) o2) (trace again_end) ->
     selected demo_store demo_set "" t -> o1 = o2) /\
  result (set_end lib_fails) = RRecord er1 /\ result again_end = RRecord er2 /\
  map r_task (er_runs er1) = [1; 2; 3; 4; 5; 6] /\ map r_task (er_runs er2) <> map r_task (er_runs er1) /\
  (exists t, selected demo_store demo_set "" t) /\
  (forall p t, holds demo_set p t -> plain_text (full_name p)).
Proof.
  eexists. eexists. split; [exact exec_set_demo|]. split; [exact exec_again|].
  split; [exact reach_set_fail|]. split; [apply go_reachable; vm_compute; reflexivity|].
  split; [exact same_ends|]. split; [vm_compute; reflexivity|]. split; [vm_compute; reflexivity|].
  split; [reflexivity|]. split; [cbn; discriminate|].
  split; [exists 1; apply selected_demo; cbn; auto|].
  intros p t H. assert (G : In (full_name p, t) (for_each_task demo_set)) by (apply named_holds; eauto).
  clear H. revert G. generalize (full_name p). intros name. vm_compute. intros H.
  repeat (destruct H as [H|H]; [inversion H; clear H; subst; plain|]). destruct H.
Qed.
