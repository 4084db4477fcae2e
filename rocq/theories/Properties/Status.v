(** What the record says about each task: C05, C06, C07, C14, C16, C27, C52, C55, C56, C66. *)
From Coq Require Import String Permutation Sorted.
From Verif Require Import Model.Common Model.Records Model.Jobs Model.TaskSet Model.Dag
     Model.Sched Model.Exec Spec.Graph Spec.Trace Properties.Demo Proofs.DemoFacts
     Proofs.ExecProps Proofs.ExecProps2 Proofs.ExecProps3 Proofs.ExecProps4 Proofs.Determinism Proofs.RootCause.
Open Scope string_scope.
Open Scope nat_scope.
Open Scope list_scope.

(** * C05 Failed dependency blocks dependants *)

(** [requires_after] holds of every graph built from a task set (C18). *)
Theorem C05_failed_blocks_dependants : forall c z s a b rb,
  wf_dag (c_dag c) -> requires_after (c_dag c) -> reachable c z s ->
  clos_trans nid (requires (c_dag c)) a b ->
  In rb (records (trace s)) -> r_node rb = b -> is_bad (r_status rb) = true ->
  ~ In (EBegin a) (trace s) /\
  (forall ra, In ra (records (trace s)) -> r_node ra = a -> r_status ra = DEPF) /\
  (forall er, result s = RRecord er ->
     exists ra, In ra (er_runs er) /\ r_node ra = a /\ r_status ra = DEPF).
Proof. exact failed_blocks_dependants. Qed.
Print Assumptions C05_failed_blocks_dependants.

(** lib fails; test depends on app, which depends on lib. *)
Example C05_case :
  wf_dag (c_dag (demo 2)) /\ requires_after (c_dag (demo 2)) /\
  reachable (demo 2) 0 (demo_end 2 lib_fails) /\
  clos_trans nid (requires (c_dag (demo 2))) 5 2 /\
  exists rb, In rb (records (trace (demo_end 2 lib_fails))) /\ r_node rb = 2 /\ is_bad (r_status rb) = true.
Proof.
  split; [exact wf_demo|]. split; [exact req_after_demo|]. split; [exact reach_demo_fail|]. split.
  - eapply t_trans with 3; apply t_step; find_in.
  - exists (nth 1 (records (trace (demo_end 2 lib_fails))) (RunRecord 0 0 "" OK 0 0 0 [])).
    split; [find_in|vm_compute; auto].
Qed.

(** * C06 Status decision rule *)
Theorem C06_status_decision : forall c z s r,
  wf_dag (c_dag c) -> requires_after (c_dag c) -> reachable c z s ->
  In r (records (trace s)) ->
  let n := r_node r in
  (r_status r = DEPF <-> bad_requirement c (trace s) n) /\
  (r_status r = SKIP <-> ~ bad_requirement c (trace s) n /\ ~ Invalidated c n) /\
  (~ bad_requirement c (trace s) n -> Invalidated c n ->
     exists o, In (EEnd n o) (trace s) /\ (forall o', In (EEnd n o') (trace s) -> o' = o) /\
       r_retcode r = job_code o /\ r_output r = job_output o /\
       r_status r = (if (job_code o =? 0)%Z then OK else FAIL)) /\
  (r_status r = DEPF \/ r_status r = SKIP -> r_retcode r = 0%Z /\ r_output r = []).
Proof. exact status_decision. Qed.
Print Assumptions C06_status_decision.

Example C06_case :
  wf_dag (c_dag (demo 2)) /\ requires_after (c_dag (demo 2)) /\
  reachable (demo 2) 0 (demo_end 2 lib_fails) /\
  map (fun r => (r_node r, r_status r)) (records (trace (demo_end 2 lib_fails))) =
    [(1, OK); (2, FAIL); (3, DEPF); (4, SKIP); (5, DEPF); (6, OK)].
Proof.
  split; [exact wf_demo|]. split; [exact req_after_demo|]. split; [exact reach_demo_fail|].
  vm_compute. reflexivity.
Qed.

(** * C07 Skipped and blocked tasks never execute; the rest do *)
Theorem C07_executed_iff_status : forall c z s er n,
  wf_dag (c_dag c) -> reachable c z s -> result s = RRecord er -> In n (node_ids (c_dag c)) ->
  (In (EBegin n) (trace s) <->
   exists r, In r (er_runs er) /\ r_node r = n /\ (r_status r = OK \/ r_status r = FAIL)).
Proof. exact executed_iff_status. Qed.
Print Assumptions C07_executed_iff_status.

(** Also before the end. *)
Theorem C07_not_executed_when_blocked : forall c z s r,
  wf_dag (c_dag c) -> reachable c z s -> In r (records (trace s)) ->
  r_status r = SKIP \/ r_status r = DEPF -> ~ In (EBegin (r_node r)) (trace s).
Proof. exact not_executed_when_blocked. Qed.
Print Assumptions C07_not_executed_when_blocked.

Example C07_case :
  wf_dag (c_dag (demo 2)) /\ reachable (demo 2) 0 (demo_end 2 lib_fails) /\
  (exists er, result (demo_end 2 lib_fails) = RRecord er) /\ In 4 (node_ids (c_dag (demo 2))).
Proof.
  split; [exact wf_demo|]. split; [exact reach_demo_fail|]. split; [exact fin_demo_fail|find_in].
Qed.

(** * C14 Record accounting *)

(** Every exec_record handed to a callback. *)
Theorem C14_shown_record_accounts : forall c z s pre e post er,
  wf_dag (c_dag c) -> reachable c z s -> trace s = pre ++ e :: post -> shown_record e = Some er ->
  er_runs er = records pre /\
  er_total er = List.length (node_ids (c_dag c)) /\
  List.length (er_runs er) <= er_total er /\
  (forall k, stat_get (er_stats er) k = count_status k (er_runs er)).
Proof. exact shown_record_accounts. Qed.
Print Assumptions C14_shown_record_accounts.

(** The record returned. *)
Theorem C14_result_accounts : forall c z s er,
  wf_dag (c_dag c) -> reachable c z s -> result s = RRecord er ->
  er_total er = List.length (node_ids (c_dag c)) /\
  List.length (er_runs er) = er_total er /\
  (forall k, stat_get (er_stats er) k = count_status k (er_runs er)) /\
  stat_get (er_stats er) OK + stat_get (er_stats er) SKIP + stat_get (er_stats er) DEPF
    + stat_get (er_stats er) FAIL = er_total er.
Proof. exact result_accounts. Qed.
Print Assumptions C14_result_accounts.

Example C14_case :
  wf_dag (c_dag (demo 2)) /\ reachable (demo 2) 0 (demo_end 2 lib_fails) /\
  (exists er, result (demo_end 2 lib_fails) = RRecord er) /\
  exists pre e post er, trace (demo_end 2 lib_fails) = pre ++ e :: post /\ shown_record e = Some er /\
    er_stats er = Stats 1 0 0 1.
Proof.
  split; [exact wf_demo|]. split; [exact reach_demo_fail|]. split; [exact fin_demo_fail|].
  exists (firstn 37 (trace (demo_end 2 lib_fails))).
  exists (nth 37 (trace (demo_end 2 lib_fails)) EDestroyed), (skipn 38 (trace (demo_end 2 lib_fails))).
  eexists. split; [apply nth_split_at; vm_compute; reflexivity|]. split; [vm_compute; reflexivity|reflexivity].
Qed.

(** * C16 The outcome does not depend on schedule or thread count *)

(** The two executions may have different thread counts, schedules, clocks and tasks'
    resources; the jobs give the same answers. *)
Theorem C16_same_outcome : forall c1 z1 s1 c2 z2 s2,
  wf_dag (c_dag c1) -> requires_after (c_dag c1) -> c_dag c2 = c_dag c1 ->
  (forall n, job_invalidated c1 n <-> job_invalidated c2 n) ->
  reachable c1 z1 s1 -> reachable c2 z2 s2 ->
  (forall n o1 o2, In (EEnd n o1) (trace s1) -> In (EEnd n o2) (trace s2) -> o1 = o2) ->
  forall r1 r2, In r1 (records (trace s1)) -> In r2 (records (trace s2)) -> r_node r1 = r_node r2 ->
  r_task r1 = r_task r2 /\ r_name r1 = r_name r2 /\ r_status r1 = r_status r2 /\
  r_retcode r1 = r_retcode r2 /\ r_output r1 = r_output r2.
Proof. exact same_outcome. Qed.
Print Assumptions C16_same_outcome.

Example C16_case :
  wf_dag (c_dag (demo 2)) /\ requires_after (c_dag (demo 2)) /\ c_dag (demo 0) = c_dag (demo 2) /\
  (forall n, job_invalidated (demo 2) n <-> job_invalidated (demo 0) n) /\
  reachable (demo 2) 0 (demo_end 2 lib_fails) /\ reachable (demo 0) 0 (demo_end 0 lib_fails) /\
  (forall n o1 o2, In (EEnd n o1) (trace (demo_end 2 lib_fails)) ->
     In (EEnd n o2) (trace (demo_end 0 lib_fails)) -> o1 = o2).
Proof.
  split; [exact wf_demo|]. split; [exact req_after_demo|]. split; [reflexivity|]. split; [intros n; reflexivity|].
  split; [exact reach_demo_fail|]. split; [exact reach_demo_fail0|].
  assert (G : forall k, k = 0 \/ k = 2 -> forall n o, In (EEnd n o) (trace (demo_end k lib_fails)) -> o = lib_fails n).
  { intros k [->| ->] n o; vm_compute;
      repeat (intros H; first [destruct H as [H|H]; [try discriminate H; inversion H; reflexivity|]; revert H | destruct H]). }
  intros n o1 o2 H1 H2. rewrite (G 2 (or_intror eq_refl) n o1 H1), (G 0 (or_introl eq_refl) n o2 H2). reflexivity.
Qed.

(** * C27 Throwing jobs are recorded as failures *)

(** The full statement: whenever a job that is a callable throws, its task is recorded
    FAIL.  This is false: see [C27_refuted].  It holds for jobs whose run() throws (jobs
    derived from job_iface, callables that throw something else than a std::exception).
    Missing: callables that throw a std::exception. *)
Theorem C27_throwing_job_fails_partial : forall c z s n o r,
  wf_dag (c_dag c) -> reachable c z s -> In (EEnd n o) (trace s) ->
  (o = JThrowOther \/ exists w, o = JThrowStd w) ->
  In r (records (trace s)) -> r_node r = n ->
  r_status r = FAIL /\ r_retcode r <> 0%Z /\ r_output r = job_output o.
Proof. exact throwing_job_fails. Qed.
Print Assumptions C27_throwing_job_fails_partial.

(** How a callable appears to the execution; [indet] is the indeterminate value
    of an uninitialised int. *)
Theorem C27_callable_throw : forall indet co,
  (forall r, co = CRet r -> traits_run indet co = JRet r) /\
  (co = CThrowOther -> traits_run indet co = JThrowOther) /\
  (forall w, co = CThrowStd w ->
     exists r, traits_run indet co = JRet r /\ rr_retcode r = indet /\
       rr_output r = [Chunk ERROR "Uncaught exception:"; Chunk ERROR w] /\ rr_log r = "").
Proof. exact callable_throw. Qed.
Print Assumptions C27_callable_throw.

(** A callable throws and its task is recorded OK. *)
Theorem C27_refuted : exists indet w z s r,
  reachable (demo 2) z s /\
  In (EEnd 1 (traits_run indet (CThrowStd w))) (trace s) /\
  In r (records (trace s)) /\ r_node r = 1 /\ r_status r = OK /\ r_retcode r = 0%Z.
Proof.
  exists 0%Z, "oops", 0%Z, (demo_end 2 (fun n => if n =? 1 then traits_run 0 (CThrowStd "oops") else ok)).
  exists (nth 0 (records (trace (demo_end 2 (fun n => if n =? 1 then traits_run 0 (CThrowStd "oops") else ok))))
            (RunRecord 0 0 "" OK 0 0 0 [])).
  split; [apply go_reachable; vm_compute; reflexivity|]. split; [find_in|]. split; [find_in|vm_compute; auto].
Qed.
Print Assumptions C27_refuted.

Example C27_case : exists s r,
  wf_dag (c_dag (demo 2)) /\ reachable (demo 2) 0 s /\ In (EEnd 1 (JThrowStd "oops")) (trace s) /\
  In r (records (trace s)) /\ r_node r = 1.
Proof.
  exists (demo_end 2 (fun n => if n =? 1 then JThrowStd "oops" else ok)).
  exists (nth 0 (records (trace (demo_end 2 (fun n => if n =? 1 then JThrowStd "oops" else ok))))
            (RunRecord 0 0 "" OK 0 0 0 [])).
  split; [exact wf_demo|]. split; [apply go_reachable; vm_compute; reflexivity|]. split; [find_in|].
  split; [find_in|vm_compute; auto].
Qed.

(** * C52 Requires edges in hand-built graphs *)

(** False when the requires edge comes without a run-after edge: node 1 requires node 2,
    2 fails, 1 is executed. *)
Theorem C52_refuted : exists c z s er rb,
  wf_dag (c_dag c) /\ reachable c z s /\ result s = RRecord er /\
  requires (c_dag c) 1 2 /\ In rb (er_runs er) /\ r_node rb = 2 /\ r_status rb = FAIL /\
  In (EBegin 1) (trace s).
Proof.
  set (c := Config (Dag [DNode 2 "b" 1; DNode 1 "a" 1] [Edge 1 2 REQUIRES]) 2 demo_tasks (fun _ => IvRet true "")).
  set (s := go c (drive c lib_fails 60 (init 0))).
  assert (E : exists er, result s = RRecord er) by (eexists; vm_compute; reflexivity).
  destruct E as [er E]. exists c, 0%Z, s, er, (nth 1 (er_runs er) (RunRecord 0 0 "" OK 0 0 0 [])).
  split; [apply wf_dagb_wf; vm_compute; reflexivity|]. split; [apply go_reachable; vm_compute; reflexivity|].
  split; [exact E|]. split; [find_in|].
  revert E. vm_compute. intros E. inversion E. cbn. intuition.
Qed.
Print Assumptions C52_refuted.

(** With a run-after edge beside each requires edge it holds: C05.  In any graph: at the
    time a job is launched, none of the required tasks recorded so far has failed. *)
Theorem C52_launch_requirements_partial : forall c z s pre a post b r,
  wf_dag (c_dag c) -> reachable c z s -> trace s = pre ++ ELaunch a :: post ->
  requires (c_dag c) a b -> In r (records pre) -> r_node r = b -> is_bad (r_status r) = false.
Proof. exact launch_requirements. Qed.
Print Assumptions C52_launch_requirements_partial.

Example C52_case :
  wf_dag (c_dag (demo 2)) /\ reachable (demo 2) 0 (demo_end 2 all_ok) /\ requires (c_dag (demo 2)) 3 2 /\
  exists pre post, trace (demo_end 2 all_ok) = pre ++ ELaunch 3 :: post.
Proof.
  split; [exact wf_demo|]. split; [exact reach_demo_ok|]. split; [find_in|]. apply in_split. find_in.
Qed.

(** * C55 Skipped tasks have skipped dependencies *)
Theorem C55_skip_closed : forall c z s er a b,
  wf_dag (c_dag c) -> requires_after (c_dag c) -> reachable c z s -> result s = RRecord er ->
  (forall a b, requires (c_dag c) a b -> inval_by (c_dag c) a b) ->
  clos_trans nid (fun x y => requires (c_dag c) x y) a b ->
  (exists r, In r (er_runs er) /\ r_node r = a /\ r_status r = SKIP) ->
  exists r, In r (er_runs er) /\ r_node r = b /\ r_status r = SKIP.
Proof. exact skip_closed. Qed.
Print Assumptions C55_skip_closed.

Example C55_case :
  let c := Config demo_dag 2 demo_tasks (fun n => IvRet (n =? 6) "") in
  wf_dag (c_dag c) /\ requires_after (c_dag c) /\
  reachable c 0 (go c (drive c all_ok 60 (init 0))) /\
  (forall a b, requires (c_dag c) a b -> inval_by (c_dag c) a b) /\
  clos_trans nid (requires (c_dag c)) 5 2 /\
  exists er r, result (go c (drive c all_ok 60 (init 0))) = RRecord er /\
    In r (er_runs er) /\ r_node r = 5 /\ r_status r = SKIP.
Proof.
  intros c. split; [exact wf_demo|]. split; [exact req_after_demo|].
  split; [apply go_reachable; vm_compute; reflexivity|]. split.
  - intros a b. unfold requires, inval_by. vm_compute. intuition; try discriminate;
      match goal with H : _ = _ |- _ => inversion H; subst; intuition end.
  - split; [eapply t_trans with 3; apply t_step; find_in|].
    assert (E : exists er, result (go c (drive c all_ok 60 (init 0))) = RRecord er) by (eexists; vm_compute; reflexivity).
    destruct E as [er E]. exists er, (nth 4 (er_runs er) (RunRecord 0 0 "" OK 0 0 0 [])). split; [exact E|].
    revert E. vm_compute. intros E. inversion E. cbn. intuition.
Qed.

(** * C56 Nothing to do *)
Theorem C56_nothing_to_do : forall c z s,
  wf_dag (c_dag c) -> reachable c z s ->
  (forall n, In n (node_ids (c_dag c)) -> ~ job_invalidated c n) ->
  (forall e, In e (trace s) -> ~ job_activity e) /\
  (forall r, In r (records (trace s)) -> r_status r = SKIP) /\
  (forall er, result s = RRecord er ->
     Permutation (map r_node (er_runs er)) (node_ids (c_dag c)) /\
     forall r, In r (er_runs er) -> r_status r = SKIP).
Proof. exact nothing_to_do. Qed.
Print Assumptions C56_nothing_to_do.

Example C56_case :
  let c := Config demo_dag 2 demo_tasks (fun n => IvRet false "") in
  wf_dag (c_dag c) /\ (forall n, In n (node_ids (c_dag c)) -> ~ job_invalidated c n) /\
  reachable c 0 (go c (drive c all_ok 60 (init 0))) /\
  exists er, result (go c (drive c all_ok 60 (init 0))) = RRecord er.
Proof.
  intros c. split; [exact wf_demo|]. split; [intros n _ [t H]; discriminate H|].
  split; [apply go_reachable; vm_compute; reflexivity|]. eexists. vm_compute. reflexivity.
Qed.

(** * C66 Blocked tasks have a failed cause *)

(** Of any graph, at any time: a task recorded as blocked transitively requires one that was
    executed and failed. *)
Theorem C66_root_cause : forall c z s r,
  wf_dag (c_dag c) -> reachable c z s -> In r (records (trace s)) -> r_status r = DEPF ->
  exists b rb o, clos_trans nid (requires (c_dag c)) (r_node r) b /\
    In rb (records (trace s)) /\ r_node rb = b /\ r_status rb = FAIL /\
    In (EEnd b o) (trace s) /\ job_code o <> 0%Z.
Proof. exact root_cause. Qed.
Print Assumptions C66_root_cause.

(** So if every job that ended returned 0, each task is OK or SKIP. *)
Theorem C66_nothing_failed : forall c z s er,
  wf_dag (c_dag c) -> reachable c z s -> result s = RRecord er ->
  (forall n o, In (EEnd n o) (trace s) -> job_code o = 0%Z) ->
  forall r, In r (er_runs er) -> r_status r = OK \/ r_status r = SKIP.
Proof. exact nothing_failed. Qed.
Print Assumptions C66_nothing_failed.

Example C66_case :
  wf_dag (c_dag (demo 2)) /\ reachable (demo 2) 0 (demo_end 2 lib_fails) /\
  (exists r, In r (records (trace (demo_end 2 lib_fails))) /\ r_node r = 5 /\ r_status r = DEPF) /\
  reachable (demo 2) 0 (demo_end 2 all_ok) /\ (exists er, result (demo_end 2 all_ok) = RRecord er) /\
  (forall n o, In (EEnd n o) (trace (demo_end 2 all_ok)) -> job_code o = 0%Z).
Proof.
  split; [exact wf_demo|]. split; [exact reach_demo_fail|]. split.
  { exists (nth 4 (records (trace (demo_end 2 lib_fails))) (RunRecord 0 0 "" OK 0 0 0 [])).
    split; [find_in|vm_compute; auto]. }
  split; [exact reach_demo_ok|]. split; [exact fin_demo_ok|].
  intros n o. vm_compute.
  repeat (intros H; first [destruct H as [H|H]; [try discriminate H; inversion H; reflexivity|]; revert H | destruct H]).
Qed.
