(** Progress, termination, time, threads and resources: C12, C13, C53, C57, C64, C72, C77. *)
From Coq Require Import String Permutation Sorted Lia.
From Verif Require Import Model.Common Model.Records Model.Jobs Model.TaskSet Model.Dag
     Model.Sched Model.Exec Spec.Graph Spec.Trace Properties.Demo Proofs.DemoFacts
     Proofs.ExecProps2 Proofs.ExecProps3 Proofs.Ticks Proofs.Dispatch Proofs.OneTick Proofs.OnTick Proofs.Stamps Proofs.Between Proofs.Threads.
Open Scope string_scope.
Open Scope nat_scope.
Open Scope list_scope.

(** * C12 No scheduler deadlock and no assertion failure *)

(** The only undefined outcome is a tick() after the end (C24). *)
Theorem C12_no_assertion_fails : forall c z s b,
  wf_dag (c_dag c) -> (forall n, In n (node_ids (c_dag c)) -> node_has_job c n = true) ->
  reachable c z s -> s_pc s = Bad b -> b = BadResumeDone.
Proof. exact no_assertion_fails. Qed.
Print Assumptions C12_no_assertion_fails.

(** Without the hypothesis: only a null job pointer can be added. *)
Theorem C12_no_null_job_needed : forall c z s n,
  wf_dag (c_dag c) -> reachable c z s -> s_pc s = Bad (BadNullJob n) ->
  In n (node_ids (c_dag c)) /\ node_has_job c n = false.
Proof. exact no_null_job_needed. Qed.
Print Assumptions C12_no_null_job_needed.

(** As long as the execution has not ended, the client can tick, or the control thread can
    go on, or a launched job has not ended and that job can go on. *)
Theorem C12_no_deadlock : forall c z s,
  wf_dag (c_dag c) -> reachable c z s ->
  match s_pc s with Finished | Failed _ | Destroyed | Bad _ => False | _ => True end ->
  (exists s', step c s LTick = Some s') \/ (exists s', step c s LCtl = Some s') \/
  (exists n, outstanding (trace s) n /\
     ((exists s', step c s (LBegin n) = Some s') \/ (forall o, exists s', step c s (LEnd n o) = Some s'))).
Proof. exact no_deadlock. Qed.
Print Assumptions C12_no_deadlock.

Example C12_case :
  wf_dag (c_dag (demo 2)) /\ reachable (demo 2) 0 demo_busy /\
  (forall n, In n (node_ids (c_dag (demo 2))) -> node_has_job (demo 2) n = true) /\
  match s_pc demo_busy with Finished | Failed _ | Destroyed | Bad _ => False | _ => True end.
Proof.
  split; [exact wf_demo|]. split; [exact reach_busy|]. split.
  - intros n. vm_compute. intuition; subst; reflexivity.
  - vm_compute. exact I.
Qed.
(** The hypothesis that every task has a job is needed. *)
Example C12_case_null_job : exists c s,
  wf_dag (c_dag c) /\ reachable c 0 s /\ s_pc s = Bad (BadNullJob 1).
Proof.
  set (c := Config (Dag [DNode 1 "a" 9] []) 2 demo_tasks demo_inval).
  exists c, (go c [LTick]). split; [apply wf_dagb_wf; vm_compute; reflexivity|].
  split; [apply go_reachable; vm_compute; reflexivity|]. vm_compute. reflexivity.
Qed.

(** * C13 Bounded number of ticks *)
Theorem C13_ticks_bounded : forall c z ls s,
  wf_dag (c_dag c) -> run_labels c (init z) ls = Some s -> (forall b, s_pc s <> Bad b) ->
  ticks ls <= 2 * List.length (node_ids (c_dag c)) + 1 + timeouts (trace s).
Proof. exact ticks_bounded. Qed.
Print Assumptions C13_ticks_bounded.

(** All that client and control thread do is bounded too. *)
Theorem C13_moves_bounded : forall c z ls s,
  wf_dag (c_dag c) -> run_labels c (init z) ls = Some s ->
  moves ls <= 7 * List.length (node_ids (c_dag c)) + 3 * timeouts (trace s)
              + 2 * Nat.max 1 (c_threads c) + 8.
Proof. exact moves_bounded. Qed.
Print Assumptions C13_moves_bounded.

(** No execution goes on for ever in which every launched job ends and the control thread
    is not held up for ever. *)
Theorem C13_no_infinite_execution : forall c z st lab,
  wf_dag (c_dag c) -> infinite_run c z st lab -> keeps_moving lab -> jobs_end st -> False.
Proof. exact no_infinite_execution. Qed.
Print Assumptions C13_no_infinite_execution.

Example C13_case :
  wf_dag (c_dag (demo 2)) /\ run_labels (demo 2) (init 0) (demo_run 2 all_ok) = Some (demo_end 2 all_ok) /\
  (forall b, s_pc (demo_end 2 all_ok) <> Bad b) /\ ticks (demo_run 2 all_ok) = 8.
Proof.
  split; [exact wf_demo|]. split; [apply go_run; vm_compute; reflexivity|].
  split; [vm_compute; discriminate|vm_compute; reflexivity].
Qed.
(** The hypotheses of [C13_no_infinite_execution] cannot be met together, that is what it
    says; each of them can be left out: executions in which only the clock moves, or in
    which a job never ends, do go on for ever. *)
Example C13_case_clock : exists st lab,
  infinite_run (demo 2) 0 st lab /\ jobs_end st /\ ~ keeps_moving lab.
Proof.
  exists (fun _ => init 0), (fun _ => LClock 0). split; [split; [reflexivity|intros i; reflexivity]|].
  split; [intros i n []|]. intros H. destruct (H 0) as [j [_ Hj]]. discriminate Hj.
Qed.
Example C13_case_no_end : exists st lab,
  infinite_run poll_cfg 0 st lab /\ keeps_moving lab /\ ~ jobs_end st.
Proof. exact polling_forever. Qed.

(** * C53 Time stamps *)
Theorem C53_time_stamps : forall c z ls s,
  wf_dag (c_dag c) -> run_labels c (init z) ls = Some s -> monotone_clock z ls ->
  (forall r, In r (records (trace s)) ->
     (z <= r_start r /\ r_start r <= r_end r /\ r_end r <= s_clock s)%Z) /\
  (forall ra rb, In ra (records (trace s)) -> In rb (records (trace s)) ->
     runs_after (c_dag c) (r_node ra) (r_node rb) -> (r_end rb <= r_start ra)%Z).
Proof. exact time_stamps. Qed.
Print Assumptions C53_time_stamps.

Example C53_case :
  let ls := [LTick; LCtl; LTick; LCtl; LBegin 1; LClock 3; LEnd 1 ok; LCtl; LClock 5] in
  wf_dag (c_dag (demo 2)) /\ run_labels (demo 2) (init 0) ls = Some (go (demo 2) ls) /\ monotone_clock 0 ls /\
  map (fun r => (r_start r, r_end r)) (records (trace (go (demo 2) ls))) = [(0%Z, 3%Z)].
Proof.
  intros ls. split; [exact wf_demo|]. split; [apply go_run; vm_compute; reflexivity|].
  split; [cbn; repeat split; discriminate|vm_compute; reflexivity].
Qed.

(** Whenever the job of [n] is being executed, the time lies between the two stamps the
    record of [n] will have. *)
Theorem C53_running_between : forall c z ls1 s1 ls2 s2 n r,
  wf_dag (c_dag c) -> run_labels c (init z) ls1 = Some s1 -> run_labels c s1 ls2 = Some s2 ->
  monotone_clock z (ls1 ++ ls2) ->
  In n (running (trace s1)) -> In r (records (trace s2)) -> r_node r = n ->
  (r_start r <= s_clock s1 /\ s_clock s1 <= r_end r)%Z.
Proof. exact running_between. Qed.
Print Assumptions C53_running_between.

Example C53_case_running :
  let ls1 := [LTick; LCtl; LTick; LCtl; LClock 1; LBegin 1; LClock 3] in
  let ls2 := [LClock 4; LEnd 1 ok; LCtl; LClock 5] in
  let s1 := go (demo 2) ls1 in let s2 := go (demo 2) (ls1 ++ ls2) in
  wf_dag (c_dag (demo 2)) /\ run_labels (demo 2) (init 0) ls1 = Some s1 /\ run_labels (demo 2) s1 ls2 = Some s2 /\
  monotone_clock 0 (ls1 ++ ls2) /\ In 1 (running (trace s1)) /\ s_clock s1 = 3%Z /\
  map (fun r => (r_node r, r_start r, r_end r)) (records (trace s2)) = [(1, 0%Z, 4%Z)].
Proof.
  intros ls1 ls2 s1 s2. split; [exact wf_demo|]. split; [apply go_run; vm_compute; reflexivity|].
  split; [vm_compute; reflexivity|]. split; [cbn; repeat split; discriminate|].
  split; [find_in|]. split; vm_compute; reflexivity.
Qed.

(** * C64 Jobs and the control thread *)

(** With worker threads every job is entered by a job thread, with none of them every job
    is entered by the control thread inside a tick(). *)
Theorem C64_who_begins : forall c z s l s' n,
  wf_dag (c_dag c) -> reachable c z s -> step c s l = Some s' ->
  ~ In (EBegin n) (trace s) -> In (EBegin n) (trace s') ->
  (0 < c_threads c -> l = LBegin n) /\ (c_threads c = 0 -> l = LCtl /\ tick_running s = true).
Proof. exact who_begins. Qed.
Print Assumptions C64_who_begins.

(** With 0 threads the control thread is inside the job until the job ends: neither the
    client nor the control thread can do anything else. *)
Theorem C64_control_thread_in_job : forall c z s n l,
  wf_dag (c_dag c) -> reachable c z s -> c_threads c = 0 -> In n (running (trace s)) ->
  env_label l = false -> step c s l = None.
Proof. exact control_thread_in_job. Qed.
Print Assumptions C64_control_thread_in_job.

(** With worker threads the control thread never waits for a job inside tick(), unless an
    exception is being thrown out of the execution. *)
Theorem C64_tick_never_waits : forall c z s,
  wf_dag (c_dag c) -> reachable c z s -> 0 < c_threads c -> tick_running s = true ->
  (forall e rest, s_pc s <> Unwind e rest) -> exists s', step c s LCtl = Some s'.
Proof. exact tick_never_waits. Qed.
Print Assumptions C64_tick_never_waits.

(** One call of tick() is a bounded number of steps of the control thread. *)
Theorem C64_tick_bounded : forall c z s s1 ls s2,
  wf_dag (c_dag c) -> reachable c z s -> step c s LTick = Some s1 -> run_labels c s1 ls = Some s2 ->
  (forall p q s', ls = p ++ q -> q <> [] -> run_labels c s1 p = Some s' -> tick_running s' = true) ->
  moves ls <= 4 * Nat.max 1 (c_threads c) + 3.
Proof. exact tick_bounded. Qed.
Print Assumptions C64_tick_bounded.

Example C64_case :
  let s := go (demo 2) [LTick; LCtl; LTick; LCtl] in let s' := go (demo 2) [LTick; LCtl; LTick; LCtl; LBegin 1] in
  wf_dag (c_dag (demo 2)) /\ reachable (demo 2) 0 s /\ step (demo 2) s (LBegin 1) = Some s' /\
  ~ In (EBegin 1) (trace s) /\ In (EBegin 1) (trace s') /\ tick_running s' = true /\
  (forall e rest, s_pc s' <> Unwind e rest).
Proof.
  intros s s'. split; [exact wf_demo|]. split; [apply go_reachable; vm_compute; reflexivity|].
  split; [vm_compute; reflexivity|]. split; [vm_compute; intros H; repeat (destruct H as [H|H]; [discriminate H|]); exact H|].
  split; [find_in|]. split; [vm_compute; reflexivity|]. vm_compute. discriminate.
Qed.
Example C64_case_control :
  let s := go (demo 0) [LTick; LCtl; LTick; LCtl] in let s' := go (demo 0) [LTick; LCtl; LTick; LCtl; LCtl] in
  wf_dag (c_dag (demo 0)) /\ reachable (demo 0) 0 s' /\ step (demo 0) s LCtl = Some s' /\
  ~ In (EBegin 1) (trace s) /\ In 1 (running (trace s')).
Proof.
  intros s s'. split; [exact wf_demo|]. split; [apply go_reachable; vm_compute; reflexivity|].
  split; [vm_compute; reflexivity|]. split; [vm_compute; intros H; repeat (destruct H as [H|H]; [discriminate H|]); exact H|].
  find_in.
Qed.
Example C64_case_tick :
  let s := go (demo 2) [LTick; LCtl] in let s1 := go (demo 2) [LTick; LCtl; LTick] in
  let ls := [LCtl; LBegin 1; LCtl; LCtl] in
  reachable (demo 2) 0 s /\ step (demo 2) s LTick = Some s1 /\
  run_labels (demo 2) s1 ls = Some (go (demo 2) ([LTick; LCtl; LTick] ++ ls)) /\
  (forall p q s', ls = p ++ q -> q <> [] -> run_labels (demo 2) s1 p = Some s' -> tick_running s' = true) /\
  tick_running (go (demo 2) ([LTick; LCtl; LTick] ++ ls)) = false /\ moves ls = 3.
Proof.
  intros s s1 ls. split; [apply go_reachable; vm_compute; reflexivity|]. split; [vm_compute; reflexivity|].
  split; [vm_compute; reflexivity|]. split; [|split; vm_compute; reflexivity].
  assert (H : map (fun k => option_map tick_running (run_labels (demo 2) s1 (firstn k ls))) (seq 0 4) =
              repeat (Some true) 4) by (vm_compute; reflexivity).
  intros p q s' E Hq Hr. assert (Hk : List.length p < 4).
  { apply (f_equal (@List.length label)) in E. rewrite app_length in E. destruct q; [congruence|]. cbn in E. lia. }
  assert (Ep : p = firstn (List.length p) ls) by (rewrite E, firstn_app, Nat.sub_diag, firstn_all, app_nil_r; reflexivity).
  rewrite Ep in Hr. assert (Hin : In (option_map tick_running (run_labels (demo 2) s1 (firstn (List.length p) ls))) (repeat (Some true) 4)).
  { rewrite <- H. apply in_map_iff. exists (List.length p). split; [reflexivity|apply in_seq; lia]. }
  rewrite Hr in Hin. apply repeat_spec in Hin. inversion Hin. reflexivity.
Qed.

(** * C57 Resources are free at the end and never leak *)
Theorem C57_resources_in_use : forall c z s r,
  wf_dag (c_dag c) -> reachable c z s ->
  match s_pc s with Suspended _ | Clean _ _ _ => True | _ => False end ->
  (In r (s_used s) <->
   exists n, In (ELaunch n) (trace s) /\ ~ recorded (trace s) n /\ In r (node_res c n)).
Proof. exact resources_in_use. Qed.
Print Assumptions C57_resources_in_use.

(** If a task could run when tick() is called, that tick does not return (with the
    execution unfinished) without having started some task, unless at the call as many
    jobs were under way as there are threads. *)
Theorem C57_work_conserving : forall c z s ph n s1 ls s2,
  wf_dag (c_dag c) -> reachable c z s -> s_pc s = Suspended ph -> could_run c (trace s) n ->
  step c s LTick = Some s1 -> forallb inner_label ls = true -> run_labels c s1 ls = Some s2 ->
  tick_running s2 = false -> done s2 = false ->
  (0 < c_threads c /\ exists busy, NoDup busy /\ c_threads c <= List.length busy /\
     forall h, In h busy -> In (ELaunch h) (trace s) /\ ~ recorded (trace s) h) \/
  (exists er m new, extends s s2 new /\ In (EBeforeRun er m) new).
Proof. exact work_conserving. Qed.
Print Assumptions C57_work_conserving.

Example C57_case :
  wf_dag (c_dag (demo 2)) /\
  let s := go (demo 2) [LTick; LCtl; LTick; LCtl; LBegin 1; LEnd 1 ok; LCtl; LCtl] in
  reachable (demo 2) 0 s /\ s_pc s = Suspended PMain /\ could_run (demo 2) (trace s) 2.
Proof.
  split; [exact wf_demo|]. intros s. split; [apply go_reachable; vm_compute; reflexivity|].
  split; [vm_compute; reflexivity|]. split; [find_in|]. split; [|split].
  - intros er. vm_compute. intros H. repeat (destruct H as [H|H]; [discriminate H|]). destruct H.
  - intros m H. assert (m = 1) as -> by (revert H; unfold runs_after; vm_compute; intuition congruence).
    eexists. split; [|instantiate (1 := nth 0 (records (trace s)) (RunRecord 0 0 "" OK 0 0 0 [])); reflexivity]. find_in.
  - intros h r Hl Hr. assert (h = 1) as -> by (revert Hl; vm_compute; intuition congruence).
    destruct Hr. exists (nth 0 (records (trace s)) (RunRecord 0 0 "" OK 0 0 0 [])). split; [find_in|reflexivity].
Qed.
(** The tick that follows: lib is launched in it. *)
Example C57_case_tick :
  let ls1 := [LTick; LCtl; LTick; LCtl; LBegin 1; LEnd 1 ok; LCtl; LCtl] in let ls2 := [LCtl; LCtl; LCtl] in
  let s := go (demo 2) ls1 in let s1 := go (demo 2) (ls1 ++ [LTick]) in let s2 := go (demo 2) (ls1 ++ LTick :: ls2) in
  step (demo 2) s LTick = Some s1 /\ forallb inner_label ls2 = true /\ run_labels (demo 2) s1 ls2 = Some s2 /\
  tick_running s2 = false /\ done s2 = false.
Proof.
  intros ls1 ls2 s s1 s2. split; [vm_compute; reflexivity|]. split; [reflexivity|]. split; [vm_compute; reflexivity|].
  split; vm_compute; reflexivity.
Qed.

(** * C72 What one tick does *)

(** A tick starts at most one task. *)
Theorem C72_starts_at_most_one : forall c z s s1 ls s2 new a er m b,
  wf_dag (c_dag c) -> reachable c z s -> step c s LTick = Some s1 ->
  forallb inner_label ls = true -> run_labels c s1 ls = Some s2 -> extends s s2 new ->
  new = a ++ EBeforeRun er m :: b ->
  forall er' m', ~ In (EBeforeRun er' m') (a ++ b).
Proof. exact tick_starts_one. Qed.
Print Assumptions C72_starts_at_most_one.

(** A task it starts could already run when tick() was called. *)
Theorem C72_starts_what_could_run : forall c z s s1 ls s2 new er m,
  wf_dag (c_dag c) -> reachable c z s -> step c s LTick = Some s1 ->
  forallb inner_label ls = true -> run_labels c s1 ls = Some s2 -> extends s s2 new ->
  In (EBeforeRun er m) new -> could_run c (trace s) m.
Proof. exact tick_starts_what_could_run. Qed.
Print Assumptions C72_starts_what_could_run.

(** Every job that had ended when tick() was called is recorded when it returns, unless the
    tick ended with an exception. *)
Theorem C72_collects_ended_jobs : forall c z s s1 ls s2 n o,
  wf_dag (c_dag c) -> reachable c z s -> done s = false -> In (EEnd n o) (trace s) ->
  step c s LTick = Some s1 -> forallb inner_label ls = true -> run_labels c s1 ls = Some s2 ->
  tick_running s2 = false -> (forall e, result s2 <> RThrow e) ->
  recorded (trace s2) n.
Proof. exact tick_collects. Qed.
Print Assumptions C72_collects_ended_jobs.

(** A tick that records the ended job of task 1 and starts task 6. *)
Example C72_case :
  let ls1 := [LTick; LCtl; LTick; LCtl; LCtl; LBegin 1; LCtl; LEnd 1 ok] in
  let ls2 := [LCtl; LCtl; LCtl; LCtl] in
  let s := go (demo 2) ls1 in let s1 := go (demo 2) (ls1 ++ [LTick]) in let s2 := go (demo 2) (ls1 ++ LTick :: ls2) in
  wf_dag (c_dag (demo 2)) /\ reachable (demo 2) 0 s /\ done s = false /\ In (EEnd 1 ok) (trace s) /\
  ~ recorded (trace s) 1 /\ step (demo 2) s LTick = Some s1 /\
  forallb inner_label ls2 = true /\ run_labels (demo 2) s1 ls2 = Some s2 /\
  tick_running s2 = false /\ (forall e, result s2 <> RThrow e) /\
  exists new, extends s s2 new /\ exists er, In (EBeforeRun er 6) new.
Proof.
  intros ls1 ls2 s s1 s2. split; [exact wf_demo|]. split; [apply go_reachable; vm_compute; reflexivity|].
  split; [vm_compute; reflexivity|]. split; [find_in|].
  split; [intros [r [H _]]; vm_compute in H; exact H|].
  split; [vm_compute; reflexivity|]. split; [reflexivity|]. split; [vm_compute; reflexivity|]. split; [vm_compute; reflexivity|].
  split; [vm_compute; discriminate|].
  exists (skipn (List.length (trace s)) (trace s2)).
  split; [unfold extends; vm_compute; reflexivity|]. eexists. find_in.
Qed.

(** * C77 When on_tick is called *)

(** A tick calls on_tick exactly if it returns with a task that was not begun. *)
Theorem C77_called_iff : forall c z s s1 ls s2 new,
  wf_dag (c_dag c) -> (forall n, In n (node_ids (c_dag c)) -> node_has_job c n = true) ->
  reachable c z s -> done s = false -> step c s LTick = Some s1 ->
  inside_tick c s1 ls -> run_labels c s1 ls = Some s2 -> extends s s2 new ->
  tick_running s2 = false -> (forall e, result s2 <> RThrow e) ->
  ((exists er, In (EOnTick er) new) <-> exists n, In n (node_ids (c_dag c)) /\ ~ task_begun (trace s2) n).
Proof. exact on_tick_iff. Qed.
Print Assumptions C77_called_iff.

(** A tick calls it at most once; it is the first call of every tick but the first one. *)
Theorem C77_once_per_tick : forall c z s s1 ls s2 new a er b,
  wf_dag (c_dag c) -> reachable c z s -> step c s LTick = Some s1 ->
  inside_tick c s1 ls -> run_labels c s1 ls = Some s2 -> extends s s2 new ->
  new = a ++ EOnTick er :: b ->
  (forall er', ~ In (EOnTick er') (a ++ b)) /\ (s_pc s <> Created -> a = []).
Proof. exact on_tick_once. Qed.
Print Assumptions C77_once_per_tick.

(** A finished execution has called it at least once per task, and with 0 threads exactly
    once per task. *)
Theorem C77_count : forall c z s er,
  wf_dag (c_dag c) -> reachable c z s -> result s = RRecord er ->
  let N := List.length (node_ids (c_dag c)) in
  N <= on_ticks (trace s) /\ (c_threads c = 0 -> on_ticks (trace s) = N).
Proof. exact on_tick_count. Qed.
Print Assumptions C77_count.

(** The tick of C72_case calls on_tick, since task 5 is left.  With 0 threads there are 6
    calls in 8 ticks. *)
Example C77_case :
  let ls1 := [LTick; LCtl; LTick; LCtl; LCtl; LBegin 1; LCtl; LEnd 1 ok] in
  let ls2 := [LCtl; LCtl; LCtl; LCtl] in
  let s := go (demo 2) ls1 in let s1 := go (demo 2) (ls1 ++ [LTick]) in let s2 := go (demo 2) (ls1 ++ LTick :: ls2) in
  wf_dag (c_dag (demo 2)) /\ (forall n, In n (node_ids (c_dag (demo 2))) -> node_has_job (demo 2) n = true) /\
  reachable (demo 2) 0 s /\ done s = false /\ step (demo 2) s LTick = Some s1 /\
  inside_tick (demo 2) s1 ls2 /\ run_labels (demo 2) s1 ls2 = Some s2 /\
  tick_running s2 = false /\ (forall e, result s2 <> RThrow e) /\
  (exists new er b, extends s s2 new /\ new = EOnTick er :: b) /\ In 5 (node_ids (c_dag (demo 2))) /\ ~ task_begun (trace s2) 5 /\
  reachable (demo 0) 0 (demo_end 0 all_ok) /\ (exists er, result (demo_end 0 all_ok) = RRecord er) /\
  on_ticks (trace (demo_end 0 all_ok)) = 6 /\ ticks (demo_run 0 all_ok) = 8.
Proof.
  intros ls1 ls2 s s1 s2. split; [exact wf_demo|].
  split; [intros n; vm_compute; intuition; subst; reflexivity|].
  split; [apply go_reachable; vm_compute; reflexivity|].
  split; [vm_compute; reflexivity|]. split; [vm_compute; reflexivity|].
  split; [apply inside_b_ok; vm_compute; reflexivity|]. split; [vm_compute; reflexivity|]. split; [vm_compute; reflexivity|].
  split; [vm_compute; discriminate|].
  split.
  { exists (skipn (List.length (trace s)) (trace s2)). eexists _, _. split; [unfold extends; vm_compute; reflexivity|vm_compute; reflexivity]. }
  split; [vm_compute; auto 10|].
  split; [intros [er H]; vm_compute in H; intuition discriminate|].
  split; [apply go_reachable; vm_compute; reflexivity|].
  split; [eexists; vm_compute; reflexivity|]. split; vm_compute; reflexivity.
Qed.
