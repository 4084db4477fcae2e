(** The contents of the files a project builds: C89. *)
From Coq Require Import String Relations Permutation Lia.
From Verif Require Import Model.Common Model.Records Model.Jobs Model.TaskSet Model.Dag
     Model.Sched Model.Exec Model.ExecSet Model.Text Model.Process
     Spec.Graph Spec.Trace Spec.Tasks Spec.Files Spec.Builds Spec.Contents
     Properties.Demo Proofs.DemoFacts Proofs.TaskFacts Proofs.ProcessFacts Proofs.RebuildDemo Proofs.BuildDemo
     Proofs.Rebuild Proofs.ContentDemo Proofs.ContentFacts
     Properties.TaskSets Properties.Processes Properties.Rebuilds Properties.Parts.
Open Scope string_scope.
Open Scope nat_scope.
Open Scope list_scope.

(** * C89 An incremental build makes what a build from scratch makes *)

(** Nothing was built at first.  Then came any number of edits and executions, of whatever
    sets and filters, with failures or given up half-way.  When an execution has ended
    without failure, the content of each output of its tasks is what the programs make of
    the present sources. *)
Theorem C89_wanted : forall st P job prog f0 f fmt ts filt addr c z s er w,
  project st P job -> (forall t, P t -> stale f0 (job t)) -> life st P job prog f0 f ->
  (forall t, selected st ts filt t -> P t) ->
  execution_of st ts filt (process_checks fmt f job) addr c -> reachable c z s -> result s = RRecord er ->
  (forall r, In r (er_runs er) -> r_status r <> FAIL) ->
  (forall t, selected st ts filt t -> detectable f (job t)) ->
  w 0 = f -> worked job prog c w (trace s) ->
  forall t o, selected st ts filt t -> In o (p_output (job t)) ->
    wanted P job prog (w (List.length (trace s))) o (contents (w (List.length (trace s))) o).
Proof. exact content_wanted. Qed.
Print Assumptions C89_wanted.

(** What the content has to be is determined by the contents of the sources: the inputs that
    are not outputs. *)
Theorem C89_determined : forall st P job prog f g q a b,
  project st P job ->
  (forall i, (exists t, P t /\ In i (p_input (job t))) -> (forall t, P t -> ~ In i (p_output (job t))) ->
     contents f i = contents g i) ->
  (exists t, P t /\ In q (p_output (job t))) ->
  wanted P job prog f q a -> wanted P job prog g q b -> a = b.
Proof. exact content_determined. Qed.
Print Assumptions C89_determined.

(** So two projects with different pasts (say, a long one, and none) that have the same
    sources in the end have the same outputs. *)
Theorem C89_same : forall st P job prog f0 g0 f g fmt1 ts1 filt1 addr1 c1 z1 s1 er1 w1 fmt2 ts2 filt2 addr2 c2 z2 s2 er2 w2,
  project st P job -> (forall t, P t -> stale f0 (job t)) -> (forall t, P t -> stale g0 (job t)) ->
  life st P job prog f0 f -> life st P job prog g0 g ->
  (forall t, selected st ts1 filt1 t \/ selected st ts2 filt2 t -> P t) ->
  execution_of st ts1 filt1 (process_checks fmt1 f job) addr1 c1 -> reachable c1 z1 s1 -> result s1 = RRecord er1 ->
  (forall r, In r (er_runs er1) -> r_status r <> FAIL) -> (forall t, selected st ts1 filt1 t -> detectable f (job t)) ->
  w1 0 = f -> worked job prog c1 w1 (trace s1) ->
  execution_of st ts2 filt2 (process_checks fmt2 g job) addr2 c2 -> reachable c2 z2 s2 -> result s2 = RRecord er2 ->
  (forall r, In r (er_runs er2) -> r_status r <> FAIL) -> (forall t, selected st ts2 filt2 t -> detectable g (job t)) ->
  w2 0 = g -> worked job prog c2 w2 (trace s2) ->
  (forall i, (exists t, P t /\ In i (p_input (job t))) -> (forall t, P t -> ~ In i (p_output (job t))) ->
     contents (w1 (List.length (trace s1))) i = contents (w2 (List.length (trace s2))) i) ->
  forall t o, selected st ts1 filt1 t -> selected st ts2 filt2 t -> In o (p_output (job t)) ->
    contents (w1 (List.length (trace s1))) o = contents (w2 (List.length (trace s2))) o.
Proof. exact content_same. Qed.
Print Assumptions C89_same.

(** What [worked] supposes of runs, for process jobs: after a run that succeeds the outputs
    are as the program left them (newness: C67_successful_run, C70_successful_run) ... *)
Theorem C89_run : forall p e f0 o f1,
  process_run p e f0 = (o, f1) -> job_code o = 0%Z ->
  (forall rf, p_retcode p = Some rf -> ~ In rf (p_output p)) ->
  forall q, In q (p_output p) -> f1 q = sb_fs e q.
Proof. exact run_outputs. Qed.
Print Assumptions C89_run.

(** ... and after one that fails, with a retcode file, the task is out of date or no file
    has changed, provided that reading the output of the program and waiting for it did not
    fail and the old retcode file could be removed. *)
Theorem C89_failed_run : forall p e f0 rf o f1,
  process_run p e f0 = (o, f1) -> job_code o <> 0%Z ->
  p_retcode p = Some rf -> sb_remove_throws e = None -> is_int (fst (sb_exit e)) ->
  ec_value (sb_drain e) = 0%Z -> ec_value (snd (sb_exit e)) = 0%Z ->
  stale f1 p \/ f1 = f0.
Proof. exact run_failed. Qed.
Print Assumptions C89_failed_run.

Example C89_case_run :
  (exists o f1, process_run cc_b (exits 0) fs_demo = (o, f1) /\ job_code o = 0%Z /\ p_output cc_b = ["b.o"] /\
     (forall rf, p_retcode cc_b = Some rf -> ~ In rf (p_output cc_b))) /\
  (exists o f1, process_run cc_b (exits 9) fs_demo = (o, f1) /\ job_code o = 9%Z /\ p_retcode cc_b = Some "rc0" /\
     sb_remove_throws (exits 9) = None /\ is_int (fst (sb_exit (exits 9))) /\
     ec_value (sb_drain (exits 9)) = 0%Z /\ ec_value (snd (sb_exit (exits 9))) = 0%Z).
Proof.
  split; do 2 eexists; (split; [reflexivity|]); unfold is_int; repeat split; try (vm_compute; discriminate).
  intros rf E. inversion E. vm_compute. intuition discriminate.
Qed.

(** The programs of the demo write down what they have read. *)
Definition note (t : tid) (cs : list (option string)) (q : path) : string :=
  q ++ "(" ++ String.concat "," (map (fun c => match c with Some x => x | None => "-" end) cs) ++ ")".
Definition demo_project (t : tid) : Prop := selected demo_store demo_set "" t.
Definition sources (lib : string) : fs := fun q =>
  if String.eqb q "lib.c" then Some (File (-5) lib true)
  else if existsb (String.eqb q) ["gen.in"; "main.c"; "doc.md"] then Some (File (-5) q true) else None.

(** An execution, and the files during it. *)
Definition cut_at (filt : string) (f : fs) (o : nid -> job_outcome) (k : nat) (more : list label) : state :=
  go (part_of demo_store filt f) (firstn k (drive (part_of demo_store filt f) o 100 (init 0)) ++ more).
Definition filmed (filt : string) (f : fs) (base : Z) (s : state) (k : nat) : fs :=
  film job_build note (part_of demo_store filt f) base (trace s) f k.
Definition left_by (filt : string) (f : fs) (base : Z) (s : state) : fs := filmed filt f base s (List.length (trace s)).

(** First lib fails; then lib.c is edited; then gen is skipped, lib executed, and the exec_coro
    destroyed; lint.rc is removed; then all is executed. *)
Definition s1 : state := cut_at "" (sources "bad") lib_fails 100 [].
Definition f1 : fs := left_by "" (sources "bad") 0 s1.
Definition f2 : fs := fs_set f1 "lib.c" (Some (File 200 "good" true)).
Definition s2 : state := cut_at "" f2 all_ok 11 [LDestroy; LCtl].
Definition f3 : fs := left_by "" f2 200 s2.
Definition f4 : fs := fs_set f3 "lint.rc" None.
Definition s4 : state := cut_at "" f4 all_ok 100 [].
(** And all from the beginning. *)
Definition s6 : state := cut_at "" (sources "good") all_ok 100 [].

Lemma demo_tasks_only t : demo_project t -> In t [1; 2; 3; 4; 5; 6].
Proof. apply selected_only. Qed.
Ltac each_task H := apply demo_tasks_only in H; cbn in H; repeat destruct H as [<-|H]; try contradiction.
Lemma demo_is_project : project demo_store demo_project job_build.
Proof. destruct C67_case as (er & _ & (D1 & D2 & _) & _). split; [exact D1|exact D2]. Qed.
Lemma sources_early lib : no_later 0 (sources lib).
Proof.
  intros q x. unfold sources. destruct (String.eqb q "lib.c"); [intros E; inversion E; cbn; lia|].
  destruct (existsb _ _); [|discriminate]. intros E. inversion E. cbn. lia.
Qed.
Lemma sources_unbuilt lib t : demo_project t -> stale (sources lib) (job_build t).
Proof. intros Ht. right. right. left. each_task Ht; eexists; (split; [left; reflexivity|reflexivity]). Qed.
Lemma part_ok filt f : match insert_set dag0 demo_store demo_set filt (fun t => t) (fun l => l) (fun l => l) with Built _ => true | _ => false end = true ->
  execution_of demo_store demo_set filt (process_checks (fun _ => "") f job_build) (fun t => t) (part_of demo_store filt f).
Proof. apply part_execution. Qed.

(** The film of a part shows work. *)
Lemma part_worked filt f base m s : no_later m f ->
  forallb (frame_ok job_build note (part_of demo_store filt f) base (trace s) f m) (seq 0 (List.length (trace s))) = true ->
  worked job_build note (part_of demo_store filt f) (filmed filt f base s) (trace s).
Proof. intros Hm H. exact (film_worked _ _ _ base _ f m Hm H). Qed.
Lemma part_later filt f base m s : no_later m f -> (base + Z.of_nat (List.length (trace s)) <= m)%Z -> no_later m (left_by filt f base s).
Proof. intros H0 Hm. apply film_no_later; [exact H0|exact Hm|apply Nat.le_refl]. Qed.
Lemma later m m' f : no_later m f -> (m <= m')%Z -> no_later m' f.
Proof. intros H Hm q x E. specialize (H q x E). lia. Qed.

Lemma edit_lib m f x : no_later m f -> (m <= f_time x)%Z -> touched demo_project job_build f (fs_set f "lib.c" (Some x)).
Proof.
  intros Hm Hx q Hq. unfold fs_set in *. destruct (String.eqb_spec q "lib.c") as [E|N]; [|congruence]. right. split.
  - subst. intros t Ht. each_task Ht; vm_compute; intuition discriminate.
  - exists x. split; [reflexivity|]. intros q1 y E1. specialize (Hm q1 y E1). lia.
Qed.
Lemma remove_lint f : touched demo_project job_build f (fs_set f "lint.rc" None).
Proof.
  intros q Hq. unfold fs_set in *. destruct (String.eqb_spec q "lint.rc") as [E|N]; [|congruence]. left.
  subst.   exists 6. split; [apply selected_demo; cbn; auto 10|]. split; [cbn; auto|reflexivity].
Qed.

Lemma f1_early : no_later 200 f1.
Proof. apply part_later; [eapply later; [apply sources_early|lia]|]. vm_compute. discriminate. Qed.
Lemma f2_early : no_later 200 f2.
Proof. apply set_no_later; [exact f1_early|]. vm_compute. discriminate. Qed.
Lemma f3_early : no_later 400 f3.
Proof. apply part_later; [eapply later; [apply f2_early|lia]|]. vm_compute. discriminate. Qed.
Lemma f4_early : no_later 400 f4.
Proof. intros q x. unfold f4, fs_set. destruct (String.eqb q "lint.rc"); [discriminate|]. apply f3_early. Qed.

Lemma part_life f0 filt f base m s : life demo_store demo_project job_build note f0 f ->
  (forall t, selected demo_store demo_set filt t -> demo_project t) ->
  match insert_set dag0 demo_store demo_set filt (fun t => t) (fun l => l) (fun l => l) with Built _ => true | _ => false end = true ->
  reachable (part_of demo_store filt f) 0 s -> running (trace s) = [] -> no_later m f ->
  forallb (frame_ok job_build note (part_of demo_store filt f) base (trace s) f m) (seq 0 (List.length (trace s))) = true ->
  life demo_store demo_project job_build note f0 (left_by filt f base s).
Proof.
  intros Hl HP Hb HR Hr Hm H.
  apply (life_exec demo_store demo_project job_build note f0 f (fun _ => "") demo_set filt (fun t => t)
           (part_of demo_store filt f) 0 s (filmed filt f base s)); auto.
  - apply part_ok, Hb.
  - eapply part_worked; eassumption.
Qed.

Lemma f4_life : life demo_store demo_project job_build note (sources "bad") f4.
Proof.
  apply life_touch with f3; [|apply remove_lint].
  apply part_life with (m := 200%Z); [|auto|vm_compute; reflexivity|apply go_reachable; vm_compute; reflexivity|vm_compute; reflexivity|exact f2_early|vm_compute; reflexivity].
  apply life_touch with f1; [|apply edit_lib with 200%Z; [exact f1_early|vm_compute; discriminate]].
  apply part_life with (m := 0%Z); [apply life_start|auto|vm_compute; reflexivity|apply go_reachable; vm_compute; reflexivity|vm_compute; reflexivity|apply sources_early|vm_compute; reflexivity].
Qed.

Example C89_case : exists er,
  project demo_store demo_project job_build /\
  (forall t, demo_project t -> stale (sources "bad") (job_build t)) /\
  life demo_store demo_project job_build note (sources "bad") f4 /\
  execution_of demo_store demo_set "" (process_checks (fun _ => "") f4 job_build) (fun t => t) (part_of demo_store "" f4) /\
  reachable (part_of demo_store "" f4) 0 s4 /\ result s4 = RRecord er /\
  map (fun r => (r_task r, r_status r)) (er_runs er) = [(1, SKIP); (2, SKIP); (3, OK); (4, SKIP); (5, OK); (6, OK)] /\
  (forall t, demo_project t -> detectable f4 (job_build t)) /\
  filmed "" f4 400 s4 0 = f4 /\
  worked job_build note (part_of demo_store "" f4) (filmed "" f4 400 s4) (trace s4) /\
  contents f1 "lib.a" = None /\ contents f4 "lib.a" = Some "lib.a(good,gen.h(gen.in))" /\
  contents (left_by "" f4 400 s4) "app" = Some "app(main.c,gen.h(gen.in),lib.a(good,gen.h(gen.in)))".
Proof.
  eexists. split; [exact demo_is_project|]. split; [apply sources_unbuilt|]. split; [exact f4_life|].
  split; [apply part_ok; vm_compute; reflexivity|]. split; [apply go_reachable; vm_compute; reflexivity|].
  split; [vm_compute; reflexivity|]. split; [vm_compute; reflexivity|].
  split; [intros t Ht; apply detectable_b_ok; each_task Ht; vm_compute; reflexivity|].
  split; [reflexivity|].
  split; [apply part_worked with 400%Z; [exact f4_early|vm_compute; reflexivity]|].
  repeat split; vm_compute; reflexivity.
Qed.

(** The same sources, with no past. *)
Example C89_case_same : exists er,
  (forall t, demo_project t -> stale (sources "good") (job_build t)) /\
  life demo_store demo_project job_build note (sources "good") (sources "good") /\
  execution_of demo_store demo_set "" (process_checks (fun _ => "") (sources "good") job_build) (fun t => t)
    (part_of demo_store "" (sources "good")) /\
  reachable (part_of demo_store "" (sources "good")) 0 s6 /\ result s6 = RRecord er /\
  map (fun r => (r_task r, r_status r)) (er_runs er) = [(1, OK); (2, OK); (3, OK); (4, OK); (5, OK); (6, OK)] /\
  (forall t, demo_project t -> detectable (sources "good") (job_build t)) /\
  worked job_build note (part_of demo_store "" (sources "good")) (filmed "" (sources "good") 0 s6) (trace s6) /\
  (forall i, (exists t, demo_project t /\ In i (p_input (job_build t))) ->
     (forall t, demo_project t -> ~ In i (p_output (job_build t))) ->
     contents (left_by "" f4 400 s4) i = contents (left_by "" (sources "good") 0 s6) i) /\
  contents (left_by "" (sources "good") 0 s6) "app" = Some "app(main.c,gen.h(gen.in),lib.a(good,gen.h(gen.in)))".
Proof.
  eexists. split; [apply sources_unbuilt|]. split; [apply life_start|].
  split; [apply part_ok; vm_compute; reflexivity|]. split; [apply go_reachable; vm_compute; reflexivity|].
  split; [vm_compute; reflexivity|]. split; [vm_compute; reflexivity|].
  split; [intros t Ht; apply detectable_b_ok; each_task Ht; vm_compute; reflexivity|].
  split; [apply part_worked with 0%Z; [apply sources_early|vm_compute; reflexivity]|].
  split; [|vm_compute; reflexivity].
  intros i (t & Ht & Hi) _. each_task Ht; cbn in Hi; repeat destruct Hi as [<-|Hi]; try contradiction; vm_compute; reflexivity.
Qed.

(** ** Where it does not hold *)

(** All was built; lib.c is edited; the next execution stops for good while lib is being
    executed, having written half of lib.a. *)
Definition f7 : fs := left_by "" (sources "good") 0 s6.
Definition f8 : fs := fs_set f7 "lib.c" (Some (File 200 "better" true)).
Definition before : state := cut_at "" f8 all_ok 8 [].
Definition crash : state := cut_at "" f8 all_ok 8 [LCtl].
Definition crash_files (k : nat) : fs :=
  if k <=? List.length (trace before) then filmed "" f8 200 before k
  else fs_set (filmed "" f8 200 before (List.length (trace before))) "lib.a" (Some (File 300 "half" true)).
Definition f9 : fs := crash_files (List.length (trace crash)).
Definition s9 : state := cut_at "" f9 all_ok 100 [].

Lemma f7_early : no_later 200 f7.
Proof. apply part_later; [eapply later; [apply sources_early|lia]|]. vm_compute. discriminate. Qed.
Lemma f8_early : no_later 200 f8.
Proof. apply set_no_later; [exact f7_early|]. vm_compute. discriminate. Qed.
Lemma f9_early : no_later 400 f9.
Proof.
  assert (E : exists g, f9 = fs_set g "lib.a" (Some (File 300 "half" true)) /\ no_later 400 g).
  { exists (left_by "" f8 200 before). split; [reflexivity|].
    apply part_later; [eapply later; [apply f8_early|lia]|]. vm_compute. discriminate. }
  destruct E as (g & -> & Hg). apply set_no_later; [exact Hg|]. vm_compute. discriminate.
Qed.
Lemma f7_life : life demo_store demo_project job_build note (sources "good") f7.
Proof.
  apply part_life with (m := 0%Z); [apply life_start|auto|vm_compute; reflexivity|apply go_reachable; vm_compute; reflexivity|vm_compute; reflexivity|apply sources_early|vm_compute; reflexivity].
Qed.
Lemma f8_life : life demo_store demo_project job_build note (sources "good") f8.
Proof. apply life_touch with f7; [exact f7_life|]. apply edit_lib with 200%Z; [exact f7_early|vm_compute; discriminate]. Qed.
Lemma crash_worked : worked job_build note (part_of demo_store "" f8) crash_files (trace crash).
Proof.
  assert (E : exists e, trace crash = trace before ++ [e] /\ match e with EEnd _ _ => false | _ => true end = true)
    by (eexists; split; vm_compute; reflexivity).
  destruct E as (e & -> & He). apply worked_more with (n := 2).
  - apply part_worked with 200%Z; [exact f8_early|vm_compute; reflexivity].
  - intros m o ->. discriminate.
  - vm_compute. auto.
  - vm_compute. auto.
Qed.
(** What lib.a should be. *)
Lemma lib_wanted f : wanted demo_project job_build note f "lib.a"
  (Some (note 2 [contents f "lib.c"; Some (note 1 [contents f "gen.in"] "gen.h")] "lib.a")).
Proof.
  assert (D : forall t, In t [1; 2; 3; 4; 5; 6] -> demo_project t) by (intros t; apply selected_demo).
  apply wanted_output; [apply D; cbn; auto|cbn; auto|]. cbn [job_build p_input].
  constructor; [|constructor; [|constructor]].
  - apply wanted_source. intros t Ht. each_task Ht; vm_compute; intuition discriminate.
  - apply wanted_output; [apply D; cbn; auto|cbn; auto|]. cbn [job_build p_input]. constructor; [|constructor].
    apply wanted_source. intros t Ht. each_task Ht; vm_compute; intuition discriminate.
Qed.
Lemma lib_not_wanted f x : x <> Some (note 2 [contents f "lib.c"; Some (note 1 [contents f "gen.in"] "gen.h")] "lib.a") ->
  ~ wanted demo_project job_build note f "lib.a" x.
Proof.
  intros N H. apply N.
  apply (content_determined demo_store demo_project job_build note f f "lib.a" _ _ demo_is_project); auto using lib_wanted.
  exists 2. split; [apply selected_demo; cbn; auto|cbn; auto].
Qed.

Lemma no_fail rs : forallb (fun r => negb (status_eqb (r_status r) FAIL)) rs = true ->
  forall r : run_record, In r rs -> r_status r <> FAIL.
Proof. intros H r Hr E. rewrite forallb_forall in H. specialize (H r Hr). rewrite E in H. discriminate. Qed.

(** An execution must not be cut off (by the end of the whole program, say) while a job is
    being executed.  What the job has written by then is newer than its inputs, and the
    retcode file is that of the run before: it is removed only after the run
    (process.cpp:169-173).  So the task is then skipped although its output is wrong.  *)
Theorem C89_needs_end : exists st P job prog f0 f fmt ts addr c s w c2 s2 er w2 t o,
  project st P job /\ (forall u, P u -> stale f0 (job u)) /\ life st P job prog f0 f /\
  (forall u, selected st ts "" u -> P u) /\
  execution_of st ts "" (process_checks fmt f job) addr c /\ reachable c 0 s /\
  w 0 = f /\ worked job prog c w (trace s) /\
  execution_of st ts "" (process_checks fmt (w (List.length (trace s))) job) addr c2 /\ reachable c2 0 s2 /\
  result s2 = RRecord er /\ (forall r, In r (er_runs er) -> r_status r <> FAIL) /\
  (forall u, selected st ts "" u -> detectable (w (List.length (trace s))) (job u)) /\
  w2 0 = w (List.length (trace s)) /\ worked job prog c2 w2 (trace s2) /\
  selected st ts "" t /\ In o (p_output (job t)) /\ p_retcode (job t) <> None /\
  ~ wanted P job prog (w2 (List.length (trace s2))) o (contents (w2 (List.length (trace s2))) o).
Proof.
  assert (R : exists er, result s9 = RRecord er /\ forallb (fun r => negb (status_eqb (r_status r) FAIL)) (er_runs er) = true)
    by (eexists; split; vm_compute; reflexivity).
  destruct R as (er & Er & Hf).
  exists demo_store, demo_project, job_build, note, (sources "good"), f8, (fun _ => ""), demo_set, (fun t => t),
    (part_of demo_store "" f8), crash, crash_files, (part_of demo_store "" f9), s9, er, (filmed "" f9 400 s9), 2, "lib.a".
  change (crash_files (List.length (trace crash))) with f9.
  split; [exact demo_is_project|]. split; [apply sources_unbuilt|].
  split; [exact f8_life|]. split; [auto|]. split; [apply part_ok; vm_compute; reflexivity|].
  split; [apply go_reachable; vm_compute; reflexivity|]. split; [reflexivity|]. split; [exact crash_worked|].
  split; [apply part_ok; vm_compute; reflexivity|]. split; [apply go_reachable; vm_compute; reflexivity|].
  split; [exact Er|]. split; [apply no_fail, Hf|].
  split; [intros t Ht; apply detectable_b_ok; each_task Ht; vm_compute; reflexivity|].
  split; [reflexivity|]. split; [apply part_worked with 400%Z; [exact f9_early|vm_compute; reflexivity]|].
  split; [apply selected_demo; cbn; auto|]. split; [cbn; auto|]. split; [discriminate|].
  apply lib_not_wanted. vm_compute. discriminate.
Qed.
Print Assumptions C89_needs_end.

(** An edited file must not be dated before the outputs (a file copied with its date, for
    instance): the edit is not noticed. *)
Definition f10 : fs := fs_set f7 "lib.c" (Some (File (-1) "better" true)).
Definition s10 : state := cut_at "" f10 all_ok 100 [].
Lemma f10_early : no_later 200 f10.
Proof. apply set_no_later; [exact f7_early|]. vm_compute. discriminate. Qed.

Theorem C89_needs_dates : exists st P job prog f0 f x fmt ts addr c s er w t o,
  project st P job /\ (forall u, P u -> stale f0 (job u)) /\ life st P job prog f0 f /\
  (forall u, selected st ts "" u -> P u) /\
  execution_of st ts "" (process_checks fmt (fs_set f "lib.c" (Some x)) job) addr c /\ reachable c 0 s /\
  result s = RRecord er /\ (forall r, In r (er_runs er) -> r_status r <> FAIL) /\
  (forall u, selected st ts "" u -> detectable (fs_set f "lib.c" (Some x)) (job u)) /\
  w 0 = fs_set f "lib.c" (Some x) /\ worked job prog c w (trace s) /\
  selected st ts "" t /\ In o (p_output (job t)) /\
  ~ wanted P job prog (w (List.length (trace s))) o (contents (w (List.length (trace s))) o).
Proof.
  assert (R : exists er, result s10 = RRecord er /\ forallb (fun r => negb (status_eqb (r_status r) FAIL)) (er_runs er) = true)
    by (eexists; split; vm_compute; reflexivity).
  destruct R as (er & Er & Hf).
  exists demo_store, demo_project, job_build, note, (sources "good"), f7, (File (-1) "better" true), (fun _ => ""), demo_set, (fun t => t),
    (part_of demo_store "" f10), s10, er, (filmed "" f10 200 s10), 2, "lib.a".
  fold f10.
  split; [exact demo_is_project|]. split; [apply sources_unbuilt|].
  split; [exact f7_life|]. split; [auto|].
  split; [apply part_ok; vm_compute; reflexivity|]. split; [apply go_reachable; vm_compute; reflexivity|].
  split; [exact Er|]. split; [apply no_fail, Hf|].
  split; [intros t Ht; apply detectable_b_ok; each_task Ht; vm_compute; reflexivity|].
  split; [reflexivity|]. split; [apply part_worked with 200%Z; [exact f10_early|vm_compute; reflexivity]|].
  split; [apply selected_demo; cbn; auto|]. split; [cbn; auto|].
  apply lib_not_wanted. vm_compute. discriminate.
Qed.
Print Assumptions C89_needs_dates.

Lemma seen_fresh f p : detectable_b f p = true -> iv_invalidated (is_invalidated (fun _ => "") f p) = false -> ~ stale f p.
Proof. intros D E H. apply (stale_noticed (fun _ => "")) in H; [congruence|apply detectable_b_ok, D]. Qed.

(** When waiting for the program (or reading its output) fails, the old retcode file stays,
    and a half-written output can pass for up to date: so the premise of C89_failed_run is
    needed, see also C31. *)
Definition half : sub :=
  Sub (ErrorCode 0 false "") [] (ErrorCode 0 false "") (0%Z, ErrorCode 110 false "timed out")
      (fs_set f8 "lib.a" (Some (File 300 "half" true))) None true 301.
Theorem C89_needs_wait : exists p e f0 o f1 q,
  process_run p e f0 = (o, f1) /\ job_code o <> 0%Z /\ p_retcode p <> None /\
  sb_remove_throws e = None /\ is_int (fst (sb_exit e)) /\ ec_value (sb_drain e) = 0%Z /\
  stale f0 p /\ ~ stale f1 p /\ In q (p_output p) /\ contents f1 q <> contents f0 q.
Proof.
  exists (job_build 2), half, f8. do 2 eexists. exists "lib.a".
  split; [reflexivity|]. split; [discriminate|]. split; [discriminate|]. split; [reflexivity|].
  split; [vm_compute; split; discriminate|]. split; [reflexivity|].
  split; [right; right; right; exists "lib.a", "lib.c"; do 2 eexists; split; [cbn; auto|]; split; [cbn; auto|];
          split; [vm_compute; reflexivity|]; split; [vm_compute; reflexivity|]; vm_compute; discriminate|].
  split; [|split; [cbn; auto|vm_compute; discriminate]].
  apply seen_fresh; vm_compute; reflexivity.
Qed.
Print Assumptions C89_needs_wait.
