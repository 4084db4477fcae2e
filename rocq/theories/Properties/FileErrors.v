(** File queries that fail during a check: C68. *)
From Coq Require Import String Relations Permutation Lia.
From Verif Require Import Model.Common Model.Records Model.Jobs Model.TaskSet Model.Dag
     Model.Sched Model.Exec Model.ExecSet Model.Text Model.Process Model.JobTypes Model.FileQueries
     Spec.Graph Spec.Trace Spec.Tasks Spec.Files
     Properties.Demo Proofs.DemoFacts Proofs.TaskFacts Proofs.QueryFacts
     Properties.TaskSets Properties.Processes Properties.Rebuilds.
Open Scope string_scope.
Open Scope nat_scope.
Open Scope list_scope.

(** * C68 A file that cannot be examined never counts as anything *)

(** An answer is the right one for every file system that agrees with what the queries
    said: files about which a query failed may exist or not, and be of any age. *)
Theorem C68_never_guesses : forall fmt q f p r,
  true_of q f -> q_is_invalidated fmt q p = Some r -> r = is_invalidated fmt f p.
Proof. intros fmt q f p r T. exact (check_agrees q f T fmt p r). Qed.
Print Assumptions C68_never_guesses.

(** The check throws only if a query about a file of the process fails; otherwise it answers. *)
Theorem C68_throws_only : forall fmt q p,
  q_is_invalidated fmt q p = None -> exists x, In x (looks_at p) /\ query_fails q x.
Proof. intros fmt q. exact (check_throws q fmt). Qed.
Print Assumptions C68_throws_only.

Theorem C68_answers : forall fmt q p, (forall x, In x (looks_at p) -> ~ query_fails q x) ->
  exists r, q_is_invalidated fmt q p = Some r /\ forall f, true_of q f -> r = is_invalidated fmt f p.
Proof. exact check_answers. Qed.
Print Assumptions C68_answers.

(** If the check of a selected task throws, no job is executed at all, and result() of the
    ticked execution rethrows what a check of such a task threw. *)
Theorem C68_nothing_runs : forall fmt q jb st ts filt addr c t p,
  execution_of st ts filt (job_checks_q fmt q jb) addr c ->
  selected st ts filt t -> jb t = JobProcess p -> q_is_invalidated fmt q p = None ->
  (forall z s e, reachable c z s -> In e (trace s) -> ~ job_activity e) /\
  (forall z s0 s, ~ (exists u, clos_trans tid (selected_after st ts filt) u u) ->
     (forall u, selected st ts filt u -> t_has_job (st_get st u) = true) ->
     reachable c z s0 -> s_pc s0 = Created -> step c s0 LTick = Some s ->
     exists u pu x, result s = RThrow (ExcInval (addr u)) /\ selected st ts filt u /\
       jb u = JobProcess pu /\ In x (looks_at pu) /\ query_fails q x).
Proof. exact failing_query_aborts. Qed.
Print Assumptions C68_nothing_runs.

(** The files of Processes.v, but the directory of a.h cannot be searched. *)
Definition q_demo : queries :=
  Queries (fun p => if String.eqb p "a.h" then None else Some (fs_exists fs_demo p))
          (fun p => match fs_demo p with Some x => Some (f_time x) | None => None end)
          (fun p => match fs_demo p with Some x => read_retcode x | None => 0%Z end).
Lemma q_demo_true : true_of q_demo fs_demo.
Proof.
  intros p. split; [|split].
  - intros b. cbn. destruct (String.eqb p "a.h"); [discriminate|]. intros E. injection E as <-.
    unfold fs_exists. destruct (fs_demo p); split; congruence.
  - intros t x. cbn. intros E Ex. rewrite Ex in E. congruence.
  - intros x Ex. cbn. now rewrite Ex.
Qed.
(** cc_a reads a.h; cp does not, nor does the check of a process whose output is missing. *)
Definition cp_a : process := Process ["cp"] ["a.c"] ["a.o"] None.
Definition cc_gone : process := Process ["cc"] ["a.c"; "a.h"] ["gone"] None.
Example C68_case :
  true_of q_demo fs_demo /\
  (exists r, q_is_invalidated (fun _ => "") q_demo cp_a = Some r /\ iv_invalidated r = false) /\
  (exists r, q_is_invalidated (fun _ => "") q_demo cc_gone = Some r /\ iv_invalidated r = true) /\
  (forall x, In x (looks_at cp_a) -> ~ query_fails q_demo x) /\
  q_is_invalidated (fun _ => "") q_demo cc_a = None.
Proof.
  split; [exact q_demo_true|]. split; [eexists; split; reflexivity|]. split; [eexists; split; reflexivity|].
  split; [|reflexivity]. intros x [<-|[<-|[]]] [H|[_ H]]; discriminate H.
Qed.

(** The six tasks of Demo.v; only app (3) needs a.h. *)
Definition job_q (t : tid) : JobTypes.job := JobProcess (if t =? 3 then cc_a else cp_a).
Definition q_build : config := demo_of (job_checks_q (fun _ => "") q_demo job_q).
Example C68_case_execution :
  execution_of demo_store demo_set "" (job_checks_q (fun _ => "") q_demo job_q) (fun t => t) q_build /\
  selected demo_store demo_set "" 3 /\ job_q 3 = JobProcess cc_a /\
  ~ (exists u, clos_trans tid (selected_after demo_store demo_set "") u u) /\
  (forall u, selected demo_store demo_set "" u -> t_has_job (st_get demo_store u) = true) /\
  reachable q_build 0 (init 0) /\ s_pc (init 0) = Created /\
  exists s, step q_build (init 0) LTick = Some s.
Proof.
  split; [apply demo_execution|]. split; [apply selected_demo; cbn; auto 10|]. split; [reflexivity|].
  split.
  { intros [u Hu]. assert (X : forall a b, clos_trans tid (selected_after demo_store demo_set "") a b ->
      b < a).
    { intros a b H. induction H as [a b (_ & _ & [H|H])|]; [..|lia];
        cbn in H; do 7 (destruct a as [|a]; [cbn in H; intuition lia|]); destruct H. }
    specialize (X u u Hu). lia. }
  split.
  { intros u Hu. destruct (selected_only u Hu) as [<-|[<-|[<-|[<-|[<-|[<-|[]]]]]]]; reflexivity. }
  split; [exists []; reflexivity|]. split; [reflexivity|]. eexists. reflexivity.
Qed.
