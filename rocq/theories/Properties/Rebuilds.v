(** Executions one after the other, and job types: C65, C67. *)
From Coq Require Import String Relations Permutation Lia.
From Verif Require Import Model.Common Model.Records Model.Jobs Model.TaskSet Model.Dag
     Model.Sched Model.Exec Model.ExecSet Model.Text Model.Process Model.JobTypes
     Spec.Graph Spec.Trace Spec.Tasks Spec.Files
     Properties.Demo Proofs.DemoFacts Proofs.TaskFacts Proofs.ProcessFacts Proofs.Rebuild Proofs.RebuildDemo
     Properties.TaskSets Properties.Processes.
Open Scope string_scope.
Open Scope nat_scope.
Open Scope list_scope.

(** The executions of the six tasks of Demo.v. *)
Definition demo_of (iv : tid -> inval_answer) : config :=
  Config demo_dag 2 demo_tasks (fun n => iv (node_task demo_dag n)).
Lemma demo_execution iv : execution_of demo_store demo_set "" iv (fun t => t) (demo_of iv).
Proof.
  assert (Eb : exists k, insert_set dag0 demo_store demo_set "" (fun t => t) (fun l => l) (fun l => l) = Built (demo_dag, k))
    by (eexists; vm_compute; reflexivity).
  destruct Eb as [k Eb]. exists 2, (fun l => l), (fun l => l).
  split; [intros l; apply Permutation_refl|]. split; [intros l; apply Permutation_refl|].
  split; [exact demo_ordered|]. split; [exact demo_owned|].
  split; [split; [auto|intros a _ []]|]. unfold exec_set. rewrite Eb. reflexivity.
Qed.

(** * C65 Plain callables are executed every time *)

(** [t] is a task with a callable job, or depends on or is invalidated by one: it is never
    skipped, and only a failed task it transitively depends on keeps it from being executed. *)
Theorem C65_callables_run : forall fmt f jb st ts filt addr c z s t u,
  execution_of st ts filt (job_checks fmt f jb) addr c -> reachable c z s ->
  selected st ts filt t -> clos_refl_trans tid (selected_inval st ts filt) t u -> jb u = JobCallable ->
  (forall r, In r (records (trace s)) -> r_task r = t -> r_status r <> SKIP) /\
  (forall er, result s = RRecord er -> ~ In (EBegin (addr t)) (trace s) ->
     exists b rb, clos_trans tid (depends_on st) t b /\ In rb (er_runs er) /\ r_task rb = b /\ r_status rb = FAIL).
Proof. exact callables_run. Qed.
Print Assumptions C65_callables_run.

(** gen is a callable, the others are up to date; lib, which depends on it, fails. *)
Definition job_mixed (t : tid) : JobTypes.job := if t =? 1 then JobCallable else JobProcess cc_a.
Definition mixed : config := demo_of (job_checks (fun _ => "") fs_demo job_mixed).
Definition mixed_end : state := go mixed (drive mixed lib_fails 60 (init 0)).
Example C65_case :
  execution_of demo_store demo_set "" (job_checks (fun _ => "") fs_demo job_mixed) (fun t => t) mixed /\
  reachable mixed 0 mixed_end /\ selected demo_store demo_set "" 3 /\
  clos_refl_trans tid (selected_inval demo_store demo_set "") 3 1 /\ job_mixed 1 = JobCallable /\
  ~ In (EBegin 3) (trace mixed_end) /\
  exists er, result mixed_end = RRecord er /\
    map (fun r => (r_task r, r_status r)) (er_runs er) = [(1, OK); (2, FAIL); (3, DEPF); (4, SKIP); (5, DEPF); (6, SKIP)].
Proof.
  split; [apply demo_execution|]. split; [apply go_reachable; vm_compute; reflexivity|].
  split; [apply selected_demo; cbn; auto 10|]. split.
  { apply rt_trans with 2; apply rt_step;
      (split; [apply selected_demo; cbn; auto 10|split; [apply selected_demo; cbn; auto|left; cbn; auto]]). }
  split; [reflexivity|]. split.
  - vm_compute. intuition discriminate.
  - eexists. split; vm_compute; reflexivity.
Qed.

(** * C67 A build is done after one execution *)

(** One successful run of a process job brings its files up to date, if the program wrote the
    outputs after the inputs and the retcode file, a file of its own, can be created. *)
Theorem C67_successful_run : forall p e f0 o f1,
  process_run p e f0 = (o, f1) -> job_code o = 0%Z ->
  (forall q, In q (p_output p) -> sb_fs e q <> None) ->
  (forall q i xo xi, In q (p_output p) -> In i (p_input p) -> sb_fs e q = Some xo -> sb_fs e i = Some xi ->
                     (f_time xi < f_time xo)%Z) ->
  (forall rf, p_retcode p = Some rf -> sb_can_create e = true /\ ~ In rf (p_output p) /\ ~ In rf (p_input p)) ->
  made f1 p /\ forall q, f1 q <> sb_fs e q -> In q (writes p).
Proof. exact successful_run. Qed.
Print Assumptions C67_successful_run.

Example C67_case_run : exists o f1,
  process_run cc_a (exits 0) fs_demo = (o, f1) /\ job_code o = 0%Z /\
  (forall q, In q (p_output cc_a) -> sb_fs (exits 0) q <> None) /\
  (forall q i xo xi, In q (p_output cc_a) -> In i (p_input cc_a) -> sb_fs (exits 0) q = Some xo ->
     sb_fs (exits 0) i = Some xi -> (f_time xi < f_time xo)%Z).
Proof.
  do 2 eexists. split; [reflexivity|]. split; [reflexivity|]. split.
  - intros q [<-|[]]. discriminate.
  - intros q i xo xi [<-|[]] [<-|[<-|[]]] H1 H2; inversion H1; inversion H2; subst; cbn; lia.
Qed.

(** When an execution of process tasks has ended without a failure, everything is up to date:
    what was executed and what was skipped, with any number of jobs at the same time. *)
Theorem C67_all_made : forall fmt st ts filt job f0 addr c z s er f1,
  execution_of st ts filt (process_checks fmt f0 job) addr c ->
  declares_files st ts filt f0 job -> (forall t, selected st ts filt t -> detectable f0 (job t)) ->
  reachable c z s -> result s = RRecord er -> (forall r, In r (er_runs er) -> r_status r <> FAIL) ->
  file_history (fun n => job (node_task (c_dag c) n)) f0 (trace s) f1 ->
  forall t, selected st ts filt t ->
    made f1 (job t) /\ forall i, In i (p_input (job t)) -> f1 i <> None.
Proof. exact rebuild_made. Qed.
Print Assumptions C67_all_made.

(** And a second execution executes only what has (or depends on, or is invalidated by, what
    has) no outputs: nothing at all if all have outputs. *)
Theorem C67_second_run_idle : forall fmt st ts filt job f0 addr c z s er f1 fmt2 addr2 c2 z2 s2,
  execution_of st ts filt (process_checks fmt f0 job) addr c ->
  declares_files st ts filt f0 job -> (forall t, selected st ts filt t -> detectable f0 (job t)) ->
  reachable c z s -> result s = RRecord er -> (forall r, In r (er_runs er) -> r_status r <> FAIL) ->
  file_history (fun n => job (node_task (c_dag c) n)) f0 (trace s) f1 ->
  execution_of st ts filt (process_checks fmt2 f1 job) addr2 c2 -> reachable c2 z2 s2 ->
  (forall t, selected st ts filt t -> In (EBegin (addr2 t)) (trace s2) ->
     exists u, clos_refl_trans tid (selected_inval st ts filt) t u /\ p_output (job u) = []) /\
  ((forall t, selected st ts filt t -> p_output (job t) <> []) ->
   (forall e, In e (trace s2) -> ~ job_activity e) /\
   (forall r, In r (records (trace s2)) -> r_status r = SKIP)).
Proof. exact rebuild_idle. Qed.
Print Assumptions C67_second_run_idle.

(** A build from scratch: no output exists. *)
Definition fs_scratch : fs := fun p =>
  if existsb (String.eqb p) ["gen.in"; "lib.c"; "main.c"; "doc.md"] then Some (File (-5) "" true) else None.
Definition job_build (t : tid) : process :=
  match t with
  | 1 => Process ["gen"] ["gen.in"] ["gen.h"] None
  | 2 => Process ["cc"] ["lib.c"; "gen.h"] ["lib.a"] (Some "lib.rc")
  | 3 => Process ["cc"] ["main.c"; "gen.h"; "lib.a"] ["app"; "app.map"] None
  | 4 => Process ["md"] ["doc.md"] ["doc.html"] None
  | 5 => Process ["test"] ["app"] ["test.log"] (Some "test.rc")
  | 6 => Process ["lint"] ["main.c"] ["lint.log"] (Some "lint.rc")
  | _ => Process [] [] [] None
  end.
Definition scratch : config := demo_of (process_checks (fun _ => "") fs_scratch job_build).
Definition scratch_end : state := go scratch (drive scratch all_ok 80 (init 0)).
Definition scratch_pr (n : nid) : process := job_build (node_task (c_dag scratch) n).
Definition fs_built : fs := play_end scratch_pr (trace scratch_end) fs_scratch.
Definition again : config := demo_of (process_checks (fun _ => "") fs_built job_build).

Example C67_case : exists er,
  execution_of demo_store demo_set "" (process_checks (fun _ => "") fs_scratch job_build) (fun t => t) scratch /\
  declares_files demo_store demo_set "" fs_scratch job_build /\
  (forall t, selected demo_store demo_set "" t -> detectable fs_scratch (job_build t)) /\
  reachable scratch 0 scratch_end /\ result scratch_end = RRecord er /\
  (forall r, In r (er_runs er) -> r_status r = OK) /\
  file_history scratch_pr fs_scratch (trace scratch_end) fs_built /\
  execution_of demo_store demo_set "" (process_checks (fun _ => "") fs_built job_build) (fun t => t) again /\
  reachable again 0 (go again (drive again all_ok 80 (init 0))).
Proof.
  assert (Er : exists er, result scratch_end = RRecord er) by (eexists; vm_compute; reflexivity).
  destruct Er as [er Er]. exists er.
  split; [apply demo_execution|].
  pose proof selected_only as Hsel.
  split.
  { split; [|split].
    - intros t u q Ht Hu H1 H2. apply Hsel in Ht, Hu.
      cbn in Ht, Hu. repeat destruct Ht as [<-|Ht]; try destruct Ht;
        repeat destruct Hu as [<-|Hu]; try destruct Hu; try reflexivity; cbn in H1, H2; intuition (subst; discriminate).
    - intros t u q Ht Hu H1 H2. apply Hsel in Ht, Hu.
      assert (D : forall a b, In b (t_depends_on (demo_tasks a)) -> clos_trans tid (depends_on demo_store) a b)
        by (intros a b H; apply t_step; exact H).
      cbn in Ht, Hu. repeat destruct Ht as [<-|Ht]; try destruct Ht;
        repeat destruct Hu as [<-|Hu]; try destruct Hu; cbn in H1, H2;
        repeat destruct H1 as [<-|H1]; try destruct H1; repeat destruct H2 as [H2|H2]; try discriminate H2; try contradiction;
        try (apply D; left; reflexivity).
      eapply t_trans with 2; apply D; left; reflexivity.
    - intros t q Ht H1 H2. apply Hsel in Ht.
      assert (Hs : forall u, In u [1; 2; 3; 4; 5; 6] -> selected demo_store demo_set "" u)
        by (intros u Hu; apply selected_demo; revert Hu; cbn; intuition).
      assert (W : forall u, In u [1; 2; 3; 4; 5; 6] -> existsb (String.eqb q) (writes (job_build u)) = false).
      { intros u Hu. destruct (existsb (String.eqb q) (writes (job_build u))) eqn:E; [|reflexivity].
        exfalso. apply existsb_exists in E. destruct E as (w & Hw & E). apply String.eqb_eq in E. subst w.
        exact (H2 u (Hs u Hu) Hw). }
      pose proof (W 1 ltac:(cbn; auto)) as W1. pose proof (W 2 ltac:(cbn; auto)) as W2. pose proof (W 3 ltac:(cbn; auto)) as W3.
      clear W H2 Hs. cbn in Ht. repeat destruct Ht as [<-|Ht]; try contradiction; cbn [job_build p_input In] in H1;
        repeat destruct H1 as [<-|H1]; try contradiction; vm_compute in W1, W2, W3; vm_compute; discriminate. }
  split.
  { intros t Ht. apply Hsel in Ht. right. cbn in Ht. repeat destruct Ht as [<-|Ht]; try destruct Ht.
    all: split; [discriminate|]; intros _ o x Ho Ex; cbn in Ho; repeat destruct Ho as [<-|Ho]; try destruct Ho; discriminate Ex. }
  split; [apply go_reachable; vm_compute; reflexivity|]. split; [exact Er|]. split.
  { intros r Hr. assert (E : map r_status (er_runs er) = [OK; OK; OK; OK; OK; OK])
      by (revert Er; vm_compute; intros Er; inversion Er; reflexivity).
    apply (in_map r_status) in Hr. rewrite E in Hr. cbn in Hr. intuition. }
  split.
  { apply play_end_history. vm_compute. reflexivity. }
  split; [apply demo_execution|]. apply go_reachable; vm_compute; reflexivity.
Qed.
