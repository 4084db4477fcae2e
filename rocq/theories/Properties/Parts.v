(** Building in parts: C83. *)
From Coq Require Import String Relations Permutation Lia.
From Verif Require Import Model.Common Model.Records Model.Jobs Model.TaskSet Model.Dag
     Model.Sched Model.Exec Model.ExecSet Model.Text Model.Process
     Spec.Graph Spec.Trace Spec.Tasks Spec.Files Spec.Parts
     Properties.Demo Proofs.DemoFacts Proofs.TaskFacts Proofs.ProcessFacts Proofs.RebuildDemo Proofs.PartDemo Proofs.PartFacts
     Properties.TaskSets Properties.Processes Properties.Rebuilds.
Open Scope string_scope.
Open Scope nat_scope.
Open Scope list_scope.

(** * C83 Building in parts *)

(** Any number of executions, each of any set and filter, without failures: in the end
    everything that was in one of them is up to date ... *)
Theorem C83_made : forall st job f0 bs f,
  built_in_parts st job f0 bs f -> (forall b, In b bs -> self_contained st b) ->
  files_declared st (in_some_part st bs) f0 job ->
  (forall t, in_some_part st bs t -> detectable f0 (job t)) ->
  (forall t, in_some_part st bs t -> p_output (job t) <> []) ->
  forall t, in_some_part st bs t -> made f (job t) /\ forall i, In i (p_input (job t)) -> f i <> None.
Proof. exact parts_made. Qed.
Print Assumptions C83_made.

(** ... and no task was executed again after the first execution it was in. *)
Theorem C83_once : forall st job f0 bs f,
  built_in_parts st job f0 bs f -> (forall b, In b bs -> self_contained st b) ->
  files_declared st (in_some_part st bs) f0 job ->
  (forall t, in_some_part st bs t -> detectable f0 (job t)) ->
  (forall t, in_some_part st bs t -> p_output (job t) <> []) ->
  forall l1 b l2 b' t, bs = l1 ++ b :: l2 -> In b' l1 -> in_part st b' t -> in_part st b t -> ~ executed_in b t.
Proof. exact parts_once. Qed.
Print Assumptions C83_once.

(** Whatever the first execution contained: in the second one, work on a task is caused by a
    task that was not in the first (or has no outputs). *)
Theorem C83_cause : forall fmt st ts filt job f0 addr c z s er f1 fmt2 ts2 filt2 addr2 c2 z2 s2 t,
  execution_of st ts filt (process_checks fmt f0 job) addr c ->
  declares_files st ts filt f0 job -> (forall t, selected st ts filt t -> detectable f0 (job t)) ->
  reachable c z s -> result s = RRecord er -> (forall r, In r (er_runs er) -> r_status r <> FAIL) ->
  file_history (fun n => job (node_task (c_dag c) n)) f0 (trace s) f1 ->
  execution_of st ts2 filt2 (process_checks fmt2 f1 job) addr2 c2 -> reachable c2 z2 s2 ->
  selected st ts2 filt2 t -> In (EBegin (addr2 t)) (trace s2) ->
  exists u, clos_refl_trans tid (selected_inval st ts2 filt2) t u /\
            (~ selected st ts filt u \/ p_output (job u) = []).
Proof. exact second_part. Qed.
Print Assumptions C83_cause.

(** Executions of the names of Demo.v over any tasks. *)
Definition part_dag (st : store) (filt : string) : dag :=
  match insert_set dag0 st demo_set filt (fun t => t) (fun l => l) (fun l => l) with
  | Built (g, _) => g
  | _ => dag0
  end.
Definition part_of (st : store) (filt : string) (f : fs) : config :=
  Config (part_dag st filt) 2 (st_get st)
         (fun n => process_checks (fun _ => "") f job_build (node_task (part_dag st filt) n)).
Definition part_end (st : store) (filt : string) (f : fs) : state :=
  go (part_of st filt f) (drive (part_of st filt f) all_ok 100 (init 0)).
Definition part_files (base : Z) (st : store) (filt : string) (f : fs) : fs :=
  left_at base (fun n => job_build (node_task (c_dag (part_of st filt f)) n)) (trace (part_end st filt f)) f.
Definition part_rec (st : store) (filt : string) (f : fs) : part :=
  Part demo_set filt (fun t => t) (trace (part_end st filt f)).

Lemma part_execution st filt f :
  match insert_set dag0 st demo_set filt (fun t => t) (fun l => l) (fun l => l) with Built _ => true | _ => false end = true ->
  execution_of st demo_set filt (process_checks (fun _ => "") f job_build) (fun t => t) (part_of st filt f).
Proof.
  intros H. destruct (insert_set dag0 st demo_set filt (fun t => t) (fun l => l) (fun l => l)) as [[g k]| |] eqn:Eb; try discriminate.
  exists 2, (fun l => l), (fun l => l).
  split; [intros l; apply Permutation_refl|]. split; [intros l; apply Permutation_refl|].
  split; [exact demo_ordered|]. split; [exact demo_owned|].
  split; [split; [auto|intros a _ []]|]. unfold exec_set, part_of, part_dag. rewrite Eb. reflexivity.
Qed.

(** The checks of a step, all decidable. *)
Definition part_ok (base : Z) (st : store) (filt : string) (f : fs) : bool :=
  match insert_set dag0 st demo_set filt (fun t => t) (fun l => l) (fun l => l) with Built _ => true | _ => false end &&
  match run_labels (part_of st filt f) (init 0) (drive (part_of st filt f) all_ok 100 (init 0)) with Some _ => true | None => false end &&
  match result (part_end st filt f) with
  | RRecord er => forallb (fun r => match r_status r with FAIL => false | _ => true end) (er_runs er)
  | _ => false
  end &&
  match play_at base (fun n => job_build (node_task (c_dag (part_of st filt f)) n)) [] (trace (part_end st filt f)) f with
  | Some _ => true | None => false
  end.
Lemma next_part base st f0 bs f filt :
  built_in_parts st job_build f0 bs f -> part_ok base st filt f = true ->
  built_in_parts st job_build f0 (bs ++ [part_rec st filt f]) (part_files base st filt f).
Proof.
  intros HB H. unfold part_ok in H. rewrite !Bool.andb_true_iff in H. destruct H as [[[H1 H2] H3] H4].
  destruct (result (part_end st filt f)) as [|er|] eqn:Er; try discriminate.
  eapply (bp_next st job_build f0 bs f (fun _ => "") demo_set filt (fun t => t) (part_of st filt f) 0 (part_end st filt f) er).
  - exact HB.
  - apply part_execution, H1.
  - unfold part_end, go. exists (drive (part_of st filt f) all_ok 100 (init 0)).
    destruct (run_labels (part_of st filt f) (init 0) _) eqn:E; [reflexivity|discriminate H2].
  - exact Er.
  - intros r Hr Es. rewrite forallb_forall in H3. specialize (H3 r Hr). rewrite Es in H3. discriminate.
  - apply left_at_history, H4.
Qed.

(** First lib (and gen, on which it depends), then everything, then everything again. *)
Definition fs_1 : fs := part_files 0 demo_store "lib" fs_scratch.
Definition fs_2 : fs := part_files 200 demo_store "" fs_1.
Definition fs_3 : fs := part_files 400 demo_store "" fs_2.
Definition lib_first : list part :=
  [part_rec demo_store "lib" fs_scratch; part_rec demo_store "" fs_1; part_rec demo_store "" fs_2].
Definition begun (tr : list event) : list nid :=
  flat_map (fun e => match e with EBegin n => [n] | _ => [] end) tr.

Lemma lib_first_tasks t : in_some_part demo_store lib_first t -> selected demo_store demo_set "" t.
Proof.
  intros (b & Hb & p & r & Hp & _ & H). exists p, r.
  destruct Hb as [<-|[<-|[<-|[]]]]; (split; [exact Hp|]); (split; [exists "", (full_name p); reflexivity|exact H]).
Qed.
Lemma lib_first_files : files_declared demo_store (in_some_part demo_store lib_first) fs_scratch job_build.
Proof.
  destruct C67_case as (er & _ & (D1 & D2 & D3) & _). split; [|split].
  - intros t u q Ht Hu. apply D1; apply lib_first_tasks; assumption.
  - intros t u q Ht Hu. apply D2; apply lib_first_tasks; assumption.
  - intros t q Ht Hq Hno. apply (D3 t q (lib_first_tasks t Ht) Hq). intros u Hu. apply Hno.
    exists (part_rec demo_store "" fs_1). split; [right; left; reflexivity|exact Hu].
Qed.

Example C83_case :
  built_in_parts demo_store job_build fs_scratch lib_first fs_3 /\
  (forall b, In b lib_first -> self_contained demo_store b) /\
  files_declared demo_store (in_some_part demo_store lib_first) fs_scratch job_build /\
  (forall t, in_some_part demo_store lib_first t -> detectable fs_scratch (job_build t)) /\
  (forall t, in_some_part demo_store lib_first t -> p_output (job_build t) <> []) /\
  map (fun b => begun (pt_trace b)) lib_first = [[1; 2]; [3; 4; 5; 6]; []].
Proof.
  split; [|split; [|split; [exact lib_first_files|split; [|split; [|vm_compute; reflexivity]]]]].
  - apply (next_part 400 demo_store fs_scratch [part_rec demo_store "lib" fs_scratch; part_rec demo_store "" fs_1] fs_2 ""); [|vm_compute; reflexivity].
    apply (next_part 200 demo_store fs_scratch [part_rec demo_store "lib" fs_scratch] fs_1 ""); [|vm_compute; reflexivity].
    apply (next_part 0 demo_store fs_scratch [] fs_scratch "lib"); [constructor|vm_compute; reflexivity].
  - intros b Hb t u Ht Hu. exfalso. assert (Ht' : in_some_part demo_store lib_first t) by (exists b; auto).
    apply lib_first_tasks, selected_only in Ht'. cbn in Ht'. repeat destruct Ht' as [<-|Ht']; try contradiction; destruct Hu.
  - intros t Ht. apply lib_first_tasks in Ht. destruct C67_case as (er & _ & _ & D & _). exact (D t Ht).
  - intros t Ht. apply lib_first_tasks, selected_only in Ht. cbn in Ht.
    repeat destruct Ht as [<-|Ht]; try contradiction; discriminate.
Qed.

(** gen is invalidated by lint.  After lib, gen and lint are built without lib: gen is
    executed again, so the next execution of lib executes it again. *)
Definition linked_tasks (t : tid) : task :=
  match t with 1 => Task true [] [] [6] [] false | _ => demo_tasks t end.
Definition linked : store := Store [1; 2; 3; 4; 5; 6] linked_tasks.
Definition fl_1 : fs := part_files 0 linked "lib" fs_scratch.
Definition fl_2 : fs := part_files 200 linked "n" fl_1.
Definition fl_3 : fs := part_files 400 linked "lib" fl_2.
Definition linked_parts : list part :=
  [part_rec linked "lib" fs_scratch; part_rec linked "n" fl_1; part_rec linked "lib" fl_2].
Lemma linked_lib f : in_part linked (part_rec linked "lib" f) 2.
Proof.
  exists ["src"; "lib"], 2. split; [eapply holds_below; [left; reflexivity|apply holds_here; left; reflexivity]|].
  split; [exists "//src/", ""; reflexivity|apply rt_refl].
Qed.
Theorem C83_needs_contained : exists st job f0 l1 b l2 b' t f,
  built_in_parts st job f0 (l1 ++ b :: l2) f /\
  In b' l1 /\ in_part st b' t /\ in_part st b t /\ executed_in b t /\
  map (fun b => begun (pt_trace b)) (l1 ++ b :: l2) = [[1; 2]; [1; 6]; [2]].
Proof.
  exists linked, job_build, fs_scratch, [part_rec linked "lib" fs_scratch; part_rec linked "n" fl_1],
    (part_rec linked "lib" fl_2), [], (part_rec linked "lib" fs_scratch), 2, fl_3.
  split; [|split; [left; reflexivity|split; [apply linked_lib|split; [apply linked_lib|split; [|vm_compute; reflexivity]]]]].
  - apply (next_part 400 linked fs_scratch [part_rec linked "lib" fs_scratch; part_rec linked "n" fl_1] fl_2 "lib"); [|vm_compute; reflexivity].
    apply (next_part 200 linked fs_scratch [part_rec linked "lib" fs_scratch] fl_1 "n"); [|vm_compute; reflexivity].
    apply (next_part 0 linked fs_scratch [] fs_scratch "lib"); [constructor|vm_compute; reflexivity].
  - unfold executed_in. find_in.
Qed.
Print Assumptions C83_needs_contained.

(** The second execution of [lib_first] after the first one. *)
Example C83_case_cause :
  execution_of demo_store demo_set "lib" (process_checks (fun _ => "") fs_scratch job_build) (fun t => t)
    (part_of demo_store "lib" fs_scratch) /\
  (exists er, result (part_end demo_store "lib" fs_scratch) = RRecord er) /\
  execution_of demo_store demo_set "" (process_checks (fun _ => "") fs_1 job_build) (fun t => t) (part_of demo_store "" fs_1) /\
  selected demo_store demo_set "" 3 /\ In (EBegin 3) (trace (part_end demo_store "" fs_1)) /\
  ~ In 3 (begun (trace (part_end demo_store "lib" fs_scratch))).
Proof.
  split; [apply part_execution; vm_compute; reflexivity|]. split; [eexists; vm_compute; reflexivity|].
  split; [apply part_execution; vm_compute; reflexivity|]. split; [apply selected_demo; cbn; auto|].
  split; [find_in|]. vm_compute. intuition discriminate.
Qed.
