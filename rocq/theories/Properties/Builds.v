(** Executing again after a failure, an interruption or an edit: C69, C70, C71. *)
From Coq Require Import String Relations Lia.
From Verif Require Import Model.Common Model.Records Model.Jobs Model.TaskSet Model.Dag
     Model.Sched Model.Exec Model.ExecSet Model.Text Model.Process Model.JobTypes
     Spec.Graph Spec.Trace Spec.Tasks Spec.Files Spec.Builds
     Properties.Demo Proofs.DemoFacts Proofs.TaskFacts Proofs.ProcessFacts Proofs.Rebuild Proofs.RebuildDemo
     Proofs.Builds Proofs.BuildDemo Properties.TaskSets Properties.Processes Properties.Rebuilds.
Open Scope string_scope.
Open Scope nat_scope.
Open Scope list_scope.

(** * C69 A failed task is executed again by the next execution *)

(** A run whose program exits with a nonzero code says so in the retcode file. *)
Theorem C69_failed_run : forall p e f0 rf o f1 code,
  p_retcode p = Some rf -> process_run p e f0 = (o, f1) ->
  is_int code -> completed e code -> code <> 0%Z -> sb_remove_throws e = None ->
  last_run_bad f1 p.
Proof. exact failed_run_noted. Qed.
Print Assumptions C69_failed_run.

Example C69_case_run : exists o f1,
  p_retcode cc_b = Some "rc0" /\ process_run cc_b (exits 9) fs_demo = (o, f1) /\
  is_int 9 /\ completed (exits 9) 9 /\ sb_remove_throws (exits 9) = None.
Proof. do 2 eexists. split; [reflexivity|]. split; [reflexivity|]. unfold is_int. repeat split; vm_compute; discriminate. Qed.

(** The job of [t] ended with a nonzero code in the first execution, which may have been
    finished or not.  In the next one neither [t] nor a task that depends on or is invalidated
    by it is skipped, and only a failed task they transitively depend on keeps them from being
    executed. *)
Theorem C69_failed_again : forall fmt2 iv st ts filt job f0 addr c z s f1 addr2 c2 z2 s2 t w,
  execution_of st ts filt iv addr c -> reachable c z s -> own_files st ts filt job ->
  build_history (fun n => job (node_task (c_dag c) n)) f0 (trace s) f1 ->
  selected st ts filt t -> went_wrong (trace s) (addr t) -> p_retcode (job t) <> None ->
  execution_of st ts filt (process_checks fmt2 f1 job) addr2 c2 -> reachable c2 z2 s2 ->
  selected st ts filt w -> clos_refl_trans tid (selected_inval st ts filt) w t ->
  (forall r, In r (records (trace s2)) -> r_task r = w -> r_status r <> SKIP) /\
  (forall er, result s2 = RRecord er -> ~ In (EBegin (addr2 w)) (trace s2) ->
     exists b rb, clos_trans tid (depends_on st) w b /\ In rb (er_runs er) /\ r_task rb = b /\ r_status rb = FAIL).
Proof. exact failed_retried. Qed.
Print Assumptions C69_failed_again.

(** A build from scratch in which lib fails. *)
Lemma scratch_early : no_later 0 fs_scratch.
Proof. intros q x. unfold fs_scratch. destruct (existsb _ _); [|discriminate]. intros E. inversion E. cbn. lia. Qed.
Lemma scratch_own : own_files demo_store demo_set "" job_build.
Proof. destruct C67_case as (er & _ & (H & _) & _). exact H. Qed.
Lemma scratch_reads : reads_of_deps demo_store demo_set "" job_build.
Proof. destruct C67_case as (er & _ & (_ & H & _) & _). exact H. Qed.

Definition broken_end : state := go scratch (drive scratch lib_fails 80 (init 0)).
Definition fs_broken : fs := act_end scratch_pr 0 (trace broken_end) fs_scratch.
Definition repair : config := demo_of (process_checks (fun _ => "") fs_broken job_build).
Definition repair_end : state := go repair (drive repair all_ok 80 (init 0)).
Example C69_case :
  execution_of demo_store demo_set "" (process_checks (fun _ => "") fs_scratch job_build) (fun t => t) scratch /\
  reachable scratch 0 broken_end /\ own_files demo_store demo_set "" job_build /\
  build_history scratch_pr fs_scratch (trace broken_end) fs_broken /\
  selected demo_store demo_set "" 2 /\ went_wrong (trace broken_end) 2 /\ p_retcode (job_build 2) <> None /\
  execution_of demo_store demo_set "" (process_checks (fun _ => "") fs_broken job_build) (fun t => t) repair /\
  reachable repair 0 repair_end /\
  exists er, result repair_end = RRecord er /\
    map (fun r => (r_task r, r_status r)) (er_runs er) = [(1, SKIP); (2, OK); (3, OK); (4, SKIP); (5, OK); (6, SKIP)].
Proof.
  split; [apply demo_execution|].
  split; [apply go_reachable; vm_compute; reflexivity|]. split; [exact scratch_own|].
  split; [apply act_end_history; [exact scratch_early|vm_compute; reflexivity]|].
  split; [apply selected_demo; cbn; auto 10|].
  split; [exists failing; split; [vm_compute; repeat (try (left; reflexivity); right)|discriminate]|].
  split; [discriminate|]. split; [apply demo_execution|]. split; [apply go_reachable; vm_compute; reflexivity|].
  eexists. split; vm_compute; reflexivity.
Qed.

(** Without a retcode file: gen fails but writes gen.h, and the next execution skips it. *)
Definition gen_fails (n : nid) : job_outcome := if n =? 1 then failing else ok.
Definition half_end : state := go scratch (drive scratch gen_fails 80 (init 0)).
Definition fs_half : fs := act_end scratch_pr 0 (trace half_end) fs_scratch.
Definition after_half : config := demo_of (process_checks (fun _ => "") fs_half job_build).
Definition after_half_end : state := go after_half (drive after_half all_ok 80 (init 0)).
Theorem C69_needs_retcode_file :
  exists st ts filt job f0 addr c s f1 addr2 c2 s2 t r,
  execution_of st ts filt (process_checks (fun _ => "") f0 job) addr c /\ reachable c 0 s /\ own_files st ts filt job /\
  build_history (fun n => job (node_task (c_dag c) n)) f0 (trace s) f1 /\
  selected st ts filt t /\ went_wrong (trace s) (addr t) /\
  execution_of st ts filt (process_checks (fun _ => "") f1 job) addr2 c2 /\ reachable c2 0 s2 /\
  In r (records (trace s2)) /\ r_task r = t /\ r_status r = SKIP.
Proof.
  exists demo_store, demo_set, "", job_build, fs_scratch, (fun t => t), scratch, half_end, fs_half, (fun t => t), after_half, after_half_end, 1.
  assert (E : exists r l, records (trace after_half_end) = r :: l /\ r_task r = 1 /\ r_status r = SKIP).
  { do 2 eexists. split; [vm_compute; reflexivity|]. split; reflexivity. }
  destruct E as (r & l & E & E1 & E2). exists r.
  split; [apply demo_execution|]. split; [apply go_reachable; vm_compute; reflexivity|]. split; [exact scratch_own|].
  split; [apply act_end_history; [exact scratch_early|vm_compute; reflexivity]|].
  split; [apply selected_demo; cbn; auto 10|].
  split; [exists failing; split; [vm_compute; repeat (try (left; reflexivity); right)|discriminate]|].
  split; [apply demo_execution|]. split; [apply go_reachable; vm_compute; reflexivity|].
  rewrite E. split; [left; reflexivity|]. auto.
Qed.
Print Assumptions C69_needs_retcode_file.

(** * C70 An execution that was interrupted can be resumed *)

(** A successful run dates what it writes, if the clocks do not go back. *)
Theorem C70_successful_run : forall p e f0 f o f1,
  process_run p e f0 = (o, f1) -> job_code o = 0%Z ->
  (forall q, In q (p_output p) -> exists x, sb_fs e q = Some x /\ forall q0 y, f q0 = Some y -> (f_time y <= f_time x)%Z) ->
  (forall q0 y, f q0 = Some y -> (f_time y <= sb_now e)%Z) ->
  (forall rf, p_retcode p = Some rf -> sb_can_create e = true) ->
  dated_since f f1 p.
Proof. exact successful_run_dated. Qed.
Print Assumptions C70_successful_run.

Definition fs_early : fs := fun q =>
  if String.eqb q "b.c" || String.eqb q "a.h" then Some (File 20 "" true) else None.
(** b.o is written at time 30, the return code file at 40; the files of the beginning are not
    younger than 20. *)
Definition made_b : sub :=
  Sub no_error [] no_error (0%Z, no_error)
      (fun q => if String.eqb q "b.o" then Some (File 30 "" true) else fs_early q) None true 40.
Example C70_case_run : exists o f1,
  process_run cc_b made_b fs_early = (o, f1) /\ job_code o = 0%Z /\ f1 "b.o" <> fs_early "b.o" /\
  (forall q, In q (p_output cc_b) -> exists x, sb_fs made_b q = Some x /\
     forall q0 y, fs_early q0 = Some y -> (f_time y <= f_time x)%Z) /\
  (forall q0 y, fs_early q0 = Some y -> (f_time y <= sb_now made_b)%Z) /\
  (forall rf, p_retcode cc_b = Some rf -> sb_can_create made_b = true).
Proof.
  do 2 eexists. split; [vm_compute; reflexivity|]. split; [reflexivity|].
  assert (H : forall z q0 y, (20 <= z)%Z -> fs_early q0 = Some y -> (f_time y <= z)%Z).
  { intros z q0 y Hz. unfold fs_early. destruct (_ || _); [|discriminate]. intros E. inversion E. exact Hz. }
  split; [vm_compute; discriminate|]. split; [|split].
  - intros q [<-|[]]. eexists. split; [reflexivity|]. intros q0 y. apply H. vm_compute. discriminate.
  - intros q0 y. apply H. vm_compute. discriminate.
  - reflexivity.
Qed.

(** The first execution was left in any state in which no job is being executed: finished,
    destroyed, failed or just not ticked any more.  What had to be executed by it and was not
    executed with success is executed by the next one, unless something it depends on fails. *)
Theorem C70_resumed : forall fmt2 iv st ts filt job f0 addr c z s f1 addr2 c2 z2 s2 er2,
  execution_of st ts filt iv addr c -> reachable c z s -> running (trace s) = [] ->
  build_history (fun n => job (node_task (c_dag c) n)) f0 (trace s) f1 ->
  own_files st ts filt job -> reads_of_deps st ts filt job -> backed_by_files st ts filt job ->
  (forall t, selected st ts filt t -> went_wrong (trace s) (addr t) -> p_retcode (job t) <> None) ->
  (forall t, selected st ts filt t -> detectable f1 (job t)) ->
  execution_of st ts filt (process_checks fmt2 f1 job) addr2 c2 -> reachable c2 z2 s2 ->
  result s2 = RRecord er2 ->
  forall t, selected st ts filt t -> must_run st ts filt f0 job t ->
    succeeded (trace s) (addr t) \/ In (EBegin (addr2 t)) (trace s2) \/
    exists b rb, clos_trans tid (depends_on st) t b /\ In rb (er_runs er2) /\ r_task rb = b /\ r_status rb = FAIL.
Proof. exact build_resumed. Qed.
Print Assumptions C70_resumed.

(** gen succeeded, lib failed, then the exec_coro was destroyed. *)
Definition cut_end : state := go scratch (firstn 14 (drive scratch lib_fails 80 (init 0)) ++ [LDestroy; LCtl; LCtl]).
Definition fs_cut : fs := act_end scratch_pr 0 (trace cut_end) fs_scratch.
Definition resume : config := demo_of (process_checks (fun _ => "") fs_cut job_build).
Definition resume_end : state := go resume (drive resume all_ok 80 (init 0)).
Example C70_case : exists er2,
  execution_of demo_store demo_set "" (process_checks (fun _ => "") fs_scratch job_build) (fun t => t) scratch /\
  reachable scratch 0 cut_end /\ In EDestroyed (trace cut_end) /\ running (trace cut_end) = [] /\
  build_history scratch_pr fs_scratch (trace cut_end) fs_cut /\
  own_files demo_store demo_set "" job_build /\ reads_of_deps demo_store demo_set "" job_build /\
  backed_by_files demo_store demo_set "" job_build /\
  (forall t, selected demo_store demo_set "" t -> went_wrong (trace cut_end) t -> p_retcode (job_build t) <> None) /\
  (forall t, selected demo_store demo_set "" t -> detectable fs_cut (job_build t)) /\
  execution_of demo_store demo_set "" (process_checks (fun _ => "") fs_cut job_build) (fun t => t) resume /\
  reachable resume 0 resume_end /\ result resume_end = RRecord er2 /\
  (forall t, selected demo_store demo_set "" t -> must_run demo_store demo_set "" fs_scratch job_build t) /\
  map (fun r => (r_task r, r_status r)) (er_runs er2) = [(1, SKIP); (2, OK); (3, OK); (4, OK); (5, OK); (6, OK)].
Proof.
  pose proof selected_only as Hsel.
  eexists. split; [apply demo_execution|]. split; [apply go_reachable; vm_compute; reflexivity|].
  split; [vm_compute; repeat (try (left; reflexivity); right)|]. split; [vm_compute; reflexivity|].
  split; [apply act_end_history; [exact scratch_early|vm_compute; reflexivity]|].
  split; [exact scratch_own|]. split; [exact scratch_reads|]. split.
  { intros t u (Ht & Hu & H). apply Hsel in Ht. cbn in Ht.
    repeat destruct Ht as [<-|Ht]; try contradiction; cbn in H; destruct H as [H|H];
      repeat destruct H as [<-|H]; try contradiction; cbn; eauto 10. }
  split.
  { intros t Ht (o & Ho & Hc). apply Hsel in Ht.
    assert (E : forallb (fun e => match e with EEnd n o => (job_code o =? 0)%Z || (n =? 2) | _ => true end) (trace cut_end) = true)
      by (vm_compute; reflexivity).
    rewrite forallb_forall in E. specialize (E _ Ho). cbn in E. apply orb_true_iff in E.
    destruct E as [E|E]; [apply Z.eqb_eq in E; contradiction|apply Nat.eqb_eq in E; subst t; discriminate]. }
  split.
  { intros t Ht. apply detectable_b_ok. apply Hsel in Ht. cbn in Ht.
    repeat destruct Ht as [<-|Ht]; try contradiction; vm_compute; reflexivity. }
  split; [apply demo_execution|]. split; [apply go_reachable; vm_compute; reflexivity|].
  split; [vm_compute; reflexivity|]. split; [|vm_compute; reflexivity].
  intros t Ht. exists t. split; [apply rt_refl|]. right. right. left. apply Hsel in Ht. cbn in Ht.
  repeat destruct Ht as [<-|Ht]; try contradiction; eexists; (split; [left; reflexivity|reflexivity]).
Qed.

(** lib depends on gen but reads none of its outputs.  gen was executed, then the exec_coro
    was destroyed: the next execution skips lib, which the first one had to execute. *)
Definition job_loose (t : tid) : process :=
  match t with 2 => Process ["cc"] ["lib.c"] ["lib.a"] None | _ => job_build t end.
Definition fs_loose : fs := fs_set fs_scratch "lib.a" (Some (File 0 "" true)).
Definition loose : config := demo_of (process_checks (fun _ => "") fs_loose job_loose).
Definition loose_pr (n : nid) : process := job_loose (node_task (c_dag loose) n).
Definition loose_cut : state := go loose (firstn 8 (drive loose all_ok 80 (init 0)) ++ [LDestroy; LCtl; LCtl]).
Definition fs_loose_cut : fs := act_end loose_pr 0 (trace loose_cut) fs_loose.
Definition loose2 : config := demo_of (process_checks (fun _ => "") fs_loose_cut job_loose).
Definition loose2_end : state := go loose2 (drive loose2 all_ok 80 (init 0)).
Theorem C70_needs_files :
  exists st ts filt job f0 addr c s f1 addr2 c2 s2 t r,
  execution_of st ts filt (process_checks (fun _ => "") f0 job) addr c /\ reachable c 0 s /\ running (trace s) = [] /\
  build_history (fun n => job (node_task (c_dag c) n)) f0 (trace s) f1 /\
  selected st ts filt t /\ must_run st ts filt f0 job t /\ (forall u, ~ went_wrong (trace s) u) /\
  ~ In (EBegin (addr t)) (trace s) /\
  execution_of st ts filt (process_checks (fun _ => "") f1 job) addr2 c2 /\ reachable c2 0 s2 /\
  In r (records (trace s2)) /\ r_task r = t /\ r_status r = SKIP.
Proof.
  exists demo_store, demo_set, "", job_loose, fs_loose, (fun t => t), loose, loose_cut, fs_loose_cut, (fun t => t), loose2, loose2_end, 2.
  assert (E : exists a r l, records (trace loose2_end) = a :: r :: l /\ r_task r = 2 /\ r_status r = SKIP).
  { do 3 eexists. split; [vm_compute; reflexivity|]. split; reflexivity. }
  destruct E as (a & r & l & E & E1 & E2). exists r.
  split; [apply demo_execution|]. split; [apply go_reachable; vm_compute; reflexivity|]. split; [vm_compute; reflexivity|].
  split.
  { apply act_end_history; [|vm_compute; reflexivity]. intros q x. unfold fs_loose, fs_set.
    destruct (String.eqb q "lib.a"); [intros Ex; inversion Ex; cbn; lia|apply scratch_early]. }
  split; [apply selected_demo; cbn; auto 10|]. split.
  { exists 1. split; [apply rt_step; split; [apply selected_demo; cbn; auto 10|split; [apply selected_demo; cbn; auto 10|left; cbn; auto]]|].
    right. right. left. exists "gen.h". split; [left; reflexivity|reflexivity]. }
  split.
  { intros u (o & Ho & Hc).
    assert (X : forallb (fun e => match e with EEnd n o => (job_code o =? 0)%Z | _ => true end) (trace loose_cut) = true)
      by (vm_compute; reflexivity).
    rewrite forallb_forall in X. specialize (X _ Ho). cbn in X. apply Z.eqb_eq in X. contradiction. }
  split.
  { intros H. assert (X : existsb (fun e => match e with EBegin n => n =? 2 | _ => false end) (trace loose_cut) = false)
      by (vm_compute; reflexivity).
    rewrite <- Bool.not_true_iff_false in X. apply X. apply existsb_exists. eexists. split; [exact H|reflexivity]. }
  split; [apply demo_execution|]. split; [apply go_reachable; vm_compute; reflexivity|].
  rewrite E. split; [right; left; reflexivity|]. auto.
Qed.
Print Assumptions C70_needs_files.

(** * C71 Editing files makes the next execution execute what reads them, and nothing else *)

(** After an execution without failures, some files that no task writes are edited.  A second
    execution without failures executes exactly the tasks that read an edited file and those
    that transitively depend on or are invalidated by them. *)
Theorem C71_edit : forall fmt fmt2 st ts filt job f0 addr c z s er f1 f2 addr2 c2 z2 s2 er2,
  execution_of st ts filt (process_checks fmt f0 job) addr c ->
  declares_files st ts filt f0 job -> (forall t, selected st ts filt t -> detectable f0 (job t)) ->
  (forall t, selected st ts filt t -> p_output (job t) <> []) ->
  reachable c z s -> result s = RRecord er -> (forall r, In r (er_runs er) -> r_status r <> FAIL) ->
  file_history (fun n => job (node_task (c_dag c) n)) f0 (trace s) f1 ->
  edited f1 f2 -> (forall t q, selected st ts filt t -> In q (writes (job t)) -> f2 q = f1 q) ->
  execution_of st ts filt (process_checks fmt2 f2 job) addr2 c2 -> reachable c2 z2 s2 ->
  result s2 = RRecord er2 -> (forall r, In r (er_runs er2) -> r_status r <> FAIL) ->
  forall t, selected st ts filt t ->
    (In (EBegin (addr2 t)) (trace s2) <->
     exists u i, clos_refl_trans tid (selected_inval st ts filt) t u /\ In i (p_input (job u)) /\ f2 i <> f1 i).
Proof. exact edit_rebuilds. Qed.
Print Assumptions C71_edit.

(** main.c is edited: lint, app and test are executed. *)
Definition fs_edited : fs := fs_set fs_built "main.c" (Some (File 100 "" true)).
Definition redo : config := demo_of (process_checks (fun _ => "") fs_edited job_build).
Definition redo_end : state := go redo (drive redo all_ok 80 (init 0)).
Example C71_case : exists er2,
  (forall t, selected demo_store demo_set "" t -> p_output (job_build t) <> []) /\
  edited fs_built fs_edited /\
  (forall t q, selected demo_store demo_set "" t -> In q (writes (job_build t)) -> fs_edited q = fs_built q) /\
  execution_of demo_store demo_set "" (process_checks (fun _ => "") fs_edited job_build) (fun t => t) redo /\
  reachable redo 0 redo_end /\ result redo_end = RRecord er2 /\
  map (fun r => (r_task r, r_status r)) (er_runs er2) = [(1, SKIP); (2, SKIP); (3, OK); (4, SKIP); (5, OK); (6, OK)].
Proof.
  pose proof selected_only as Hsel.
  eexists. split.
  { intros t Ht. apply Hsel in Ht. cbn in Ht. repeat destruct Ht as [<-|Ht]; try contradiction; discriminate. }
  assert (B : no_later 100 fs_built).
  { apply play_end_no_later; [|vm_compute; discriminate]. intros q x H. apply scratch_early in H. lia. }
  split.
  { intros q Hq. unfold fs_edited, fs_set in *. destruct (String.eqb q "main.c"); [|congruence].
    eexists. split; [reflexivity|]. intros q1 y Hy. exact (B q1 y Hy). }
  split.
  { intros t q Ht Hw. apply Hsel in Ht. unfold fs_edited, fs_set. destruct (String.eqb_spec q "main.c") as [->|N]; [|reflexivity].
    exfalso. cbn in Ht. repeat destruct Ht as [<-|Ht]; try contradiction; cbn in Hw; repeat destruct Hw as [Hw|Hw]; try discriminate Hw; contradiction. }
  split; [apply demo_execution|]. split; [apply go_reachable; vm_compute; reflexivity|].
  split; vm_compute; reflexivity.
Qed.

(** An edit made while the job that reads the file is being executed is lost: the output is
    newer than the edit although it was made from the old text. *)
Theorem C71_edit_during_run : exists p e f0 o f1 i,
  In i (p_input p) /\ p_output p <> [] /\ process_run p e f0 = (o, f1) /\ job_code o = 0%Z /\
  (exists x y, f0 i = Some x /\ f1 i = Some y /\ f_content x <> f_content y /\ (f_time x < f_time y)%Z) /\
  forall fmt, iv_invalidated (is_invalidated fmt f1 p) = false.
Proof.
  pose (p := Process ["cc"] ["a.c"] ["a.o"] None).
  pose (f0 := fun q => if String.eqb q "a.c" then Some (File 10 "old" true) else None).
  pose (f1 := fun q => if String.eqb q "a.c" then Some (File 20 "new" true)
                       else if String.eqb q "a.o" then Some (File 30 "from old" true) else None).
  exists p, (Sub no_error [] no_error (0%Z, no_error) f1 None true 40), f0. do 2 eexists. exists "a.c".
  split; [left; reflexivity|]. split; [discriminate|]. split; [reflexivity|]. split; [reflexivity|]. split.
  - do 2 eexists. split; [reflexivity|]. split; [reflexivity|]. split; [discriminate|reflexivity].
  - intros fmt. reflexivity.
Qed.
Print Assumptions C71_edit_during_run.
