(** The start-up phase: C08, C09, C10, C11, C73. *)
From Coq Require Import String Permutation Sorted.
From Verif Require Import Model.Common Model.Records Model.Jobs Model.TaskSet Model.Dag
     Model.Sched Model.Exec Spec.Graph Spec.Trace Properties.Demo Proofs.DemoFacts
     Proofs.ExecProps2 Proofs.ExecProps4 Proofs.Asked.
Open Scope string_scope.
Open Scope nat_scope.
Open Scope list_scope.

(** * C08 Invalidation closure *)

(** As soon as some task is about to be run, the visitor has been told for every node
    whether it is invalidated; the graph may have cycles of invalidated-by edges. *)
Theorem C08_invalidation_observed : forall c z s pre er m post n,
  wf_dag (c_dag c) -> reachable c z s ->
  trace s = pre ++ EBeforeRun er m :: post -> In n (node_ids (c_dag c)) ->
  (Invalidated c n <->
   (exists t, In (EInval n INVALID t) pre) \/ (exists p, In (EDepInval n p) pre)).
Proof. exact invalidation_observed. Qed.
Print Assumptions C08_invalidation_observed.

(** The flag the code keeps for each node, from the end of the start-up phase on. *)
Theorem C08_invalidation_flags : forall c z s n,
  wf_dag (c_dag c) -> reachable c z s ->
  match s_pc s with Suspended _ | Clean _ _ _ => True | _ => False end ->
  In n (node_ids (c_dag c)) ->
  (ns_inval (s_ns s n) = INVALID <-> Invalidated c n) /\
  (ns_inval (s_ns s n) = VALID <-> ~ Invalidated c n).
Proof. exact invalidation_flags. Qed.
Print Assumptions C08_invalidation_flags.

(** A cycle of invalidated-by edges 2 -> 3 -> 2, and 3 -> 1 where 1 is invalidated. *)
Definition inval_loop : config :=
  Config (Dag [DNode 3 "c" 1; DNode 2 "b" 1; DNode 1 "a" 1]
              [Edge 2 3 INVALIDATED_BY; Edge 3 2 INVALIDATED_BY; Edge 3 1 INVALIDATED_BY])
         1 demo_tasks demo_inval.
Example C08_case : exists s,
  wf_dag (c_dag inval_loop) /\ reachable inval_loop 0 s /\
  (exists pre er m post, trace s = pre ++ EBeforeRun er m :: post) /\ Invalidated inval_loop 2 /\
  match s_pc s with Suspended _ | Clean _ _ _ => True | _ => False end.
Proof.
  exists (go inval_loop [LTick; LCtl; LTick; LCtl]).
  split; [apply wf_dagb_wf; vm_compute; reflexivity|]. split; [apply go_reachable; vm_compute; reflexivity|].
  split; [|split].
  - do 2 eexists. exists 1. eexists.
    apply (nth_split_at (trace (go inval_loop [LTick; LCtl; LTick; LCtl])) 13). vm_compute. reflexivity.
  - exists 1. split; [|exists "changed"; reflexivity].
    eapply rt_trans with 3; apply rt_step; find_in.
  - vm_compute. exact I.
Qed.

(** * C09 Invalidation is asked once and before any job *)

(** is_invalidated is called at most once for a node, only once every node has been
    announced, and before any job of the execution is launched. *)
Theorem C09_asked_once : forall c z s pre n post,
  wf_dag (c_dag c) -> reachable c z s -> trace s = pre ++ EAsk n :: post ->
  In n (node_ids (c_dag c)) /\ ~ In (EAsk n) pre /\ ~ In (EAsk n) post /\
  (forall m, In m (node_ids (c_dag c)) -> In (EEnque m) pre) /\
  (forall e, In e pre -> ~ job_activity e).
Proof. exact ask_once. Qed.
Print Assumptions C09_asked_once.

(** An execution that finishes has asked every node. *)
Theorem C09_all_asked : forall c z s er n,
  wf_dag (c_dag c) -> reachable c z s -> result s = RRecord er -> In n (node_ids (c_dag c)) ->
  In (EAsk n) (trace s).
Proof. exact ask_all. Qed.
Print Assumptions C09_all_asked.

(** Whatever happens to a job, all nodes have been asked before and none is afterwards. *)
Theorem C09_asked_before_jobs : forall c z s pre e post n,
  wf_dag (c_dag c) -> reachable c z s -> trace s = pre ++ e :: post -> job_activity e ->
  (In n (node_ids (c_dag c)) -> In (EAsk n) pre) /\ ~ In (EAsk n) post.
Proof. exact ask_before_jobs. Qed.
Print Assumptions C09_asked_before_jobs.

(** A job that answers is followed at once by the report of its answer; when it throws
    nothing else happens, but for the destructor. *)
Theorem C09_answer_follows : forall c z s pre n post,
  wf_dag (c_dag c) -> reachable c z s -> trace s = pre ++ EAsk n :: post ->
  match c_inval c n with
  | IvRet b t => exists post', post = EInval n (if b then INVALID else VALID) t :: post'
  | IvThrow => post = [] \/ post = [EDestroyed]
  end.
Proof. exact ask_followed. Qed.
Print Assumptions C09_answer_follows.

(** after_job_is_inval directly follows the call, reports the job's own answer, and is
    called at most once for a node. *)
Theorem C09_answer_reported : forall c z s pre n v t post,
  wf_dag (c_dag c) -> reachable c z s -> trace s = pre ++ EInval n v t :: post ->
  In n (node_ids (c_dag c)) /\
  (exists pre', pre = pre' ++ [EAsk n]) /\
  (forall v' t', ~ In (EInval n v' t') pre /\ ~ In (EInval n v' t') post) /\
  exists b, c_inval c n = IvRet b t /\ v = (if b then INVALID else VALID).
Proof. exact inval_reported. Qed.
Print Assumptions C09_answer_reported.

(** If some is_invalidated throws, no job is ever launched ... *)
Theorem C09_throw_no_job : forall c z s n,
  wf_dag (c_dag c) -> reachable c z s -> In n (node_ids (c_dag c)) -> c_inval c n = IvThrow ->
  forall e, In e (trace s) -> ~ job_activity e.
Proof. exact inval_throw_no_job. Qed.
Print Assumptions C09_throw_no_job.

(** ... the exception result() rethrows is the one of the job asked last ... *)
Theorem C09_throw_last : forall c z s n,
  wf_dag (c_dag c) -> reachable c z s -> result s = RThrow (ExcInval n) ->
  c_inval c n = IvThrow /\ exists pre, trace s = pre ++ [EAsk n].
Proof. exact ask_thrower. Qed.
Print Assumptions C09_throw_last.

(** ... and after the first tick result() rethrows an exception of such a job. *)
Theorem C09_throw_result : forall c z s0 s,
  wf_dag (c_dag c) -> acyclic (c_dag c) ->
  (forall n, In n (node_ids (c_dag c)) -> node_has_job c n = true) ->
  reachable c z s0 -> s_pc s0 = Created -> step c s0 LTick = Some s ->
  ((exists n, result s = RThrow (ExcInval n)) <->
   (exists n, In n (node_ids (c_dag c)) /\ c_inval c n = IvThrow)) /\
  (forall n, result s = RThrow (ExcInval n) ->
     In n (node_ids (c_dag c)) /\ c_inval c n = IvThrow).
Proof. exact inval_throw_result. Qed.
Print Assumptions C09_throw_result.

Definition inval_throws : config :=
  Config demo_dag 2 demo_tasks (fun n => if n =? 4 then IvThrow else IvRet true "").
Example C09_case :
  wf_dag (c_dag (demo 2)) /\ reachable (demo 2) 0 (demo_end 2 all_ok) /\
  (exists er, result (demo_end 2 all_ok) = RRecord er) /\
  (exists pre post, trace (demo_end 2 all_ok) = pre ++ EAsk 3 :: post) /\
  (exists pre v t post, trace (demo_end 2 all_ok) = pre ++ EInval 3 v t :: post) /\
  (exists pre post, trace (demo_end 2 all_ok) = pre ++ EBegin 3 :: post).
Proof.
  split; [exact wf_demo|]. split; [exact reach_demo_ok|]. split; [eexists; vm_compute; reflexivity|].
  split; [|split].
  - apply in_split. find_in.
  - do 4 eexists. apply (nth_split_at (trace (demo_end 2 all_ok)) 11). vm_compute. reflexivity.
  - apply in_split. find_in.
Qed.
Example C09_case_throw :
  wf_dag (c_dag inval_throws) /\ acyclic (c_dag inval_throws) /\
  (forall n, In n (node_ids (c_dag inval_throws)) -> node_has_job inval_throws n = true) /\
  reachable inval_throws 0 (init 0) /\ s_pc (init 0) = Created /\
  In 4 (node_ids (c_dag inval_throws)) /\ c_inval inval_throws 4 = IvThrow /\
  exists s, step inval_throws (init 0) LTick = Some s /\ result s = RThrow (ExcInval 4) /\
            exists pre, trace s = pre ++ [EAsk 4].
Proof.
  split; [exact wf_demo|]. split; [exact acyclic_demo|]. split.
  - intros n. vm_compute. intuition; subst; reflexivity.
  - split; [exists []; reflexivity|]. split; [reflexivity|]. split; [find_in|]. split; [reflexivity|].
    eexists. split; [reflexivity|]. split; [vm_compute; reflexivity|].
    exists (firstn 12 (trace (go inval_throws [LTick]))). vm_compute. reflexivity.
Qed.

(** * C10 Cycle detection is sound and complete *)

(** After the first tick. *)
Theorem C10_cycle_detected_iff : forall c z s0 s,
  wf_dag (c_dag c) -> reachable c z s0 -> s_pc s0 = Created -> step c s0 LTick = Some s ->
  (result s = RThrow ExcCycle <-> has_after_cycle (c_dag c)).
Proof. exact cycle_detected_iff. Qed.
Print Assumptions C10_cycle_detected_iff.

(** At any time. *)
Theorem C10_cycle_thrown : forall c z s,
  wf_dag (c_dag c) -> reachable c z s -> result s = RThrow ExcCycle -> has_after_cycle (c_dag c).
Proof. exact cycle_thrown. Qed.
Print Assumptions C10_cycle_thrown.

Example C10_case :
  wf_dag (c_dag (loop 2)) /\ reachable (loop 2) 0 (init 0) /\ s_pc (init 0) = Created /\
  exists s, step (loop 2) (init 0) LTick = Some s /\ result s = RThrow ExcCycle.
Proof.
  split; [exact wf_loop|]. split; [exists []; reflexivity|]. split; [reflexivity|].
  eexists. split; [reflexivity|]. vm_compute. reflexivity.
Qed.
(** Cycles of the other kinds of edges are accepted. *)
Example C10_case_other_kinds : exists s er,
  reachable inval_loop 0 s /\ result s = RRecord er.
Proof.
  exists (go inval_loop (drive inval_loop all_ok 60 (init 0))).
  eexists. split; [apply go_reachable; vm_compute; reflexivity|]. vm_compute. reflexivity.
Qed.

(** * C11 The reported cycle is genuine *)
Theorem C11_cycle_report : forall c z s pre l post,
  wf_dag (c_dag c) -> reachable c z s -> trace s = pre ++ ECycle l :: post ->
  is_cycle (c_dag c) l /\
  (forall l', ~ In (ECycle l') pre /\ ~ In (ECycle l') post) /\
  (forall e, In e (trace s) -> ~ job_activity e).
Proof. exact cycle_report. Qed.
Print Assumptions C11_cycle_report.

(** An execution that ends with 'Cycle detected' has reported it. *)
Theorem C11_cycle_result_reported : forall c z s,
  wf_dag (c_dag c) -> reachable c z s -> result s = RThrow ExcCycle ->
  exists pre l, trace s = pre ++ [ECycle l] /\ is_cycle (c_dag c) l.
Proof. exact cycle_result_reported. Qed.
Print Assumptions C11_cycle_result_reported.

(** No execution of a cyclic graph asks a job, ... *)
Theorem C11_cycle_asks_nobody : forall c z s n,
  wf_dag (c_dag c) -> reachable c z s -> In (EAsk n) (trace s) -> ~ has_after_cycle (c_dag c).
Proof. exact ask_acyclic. Qed.
Print Assumptions C11_cycle_asks_nobody.

(** ... starts one or finishes normally. *)
Theorem C11_cycle_never_runs : forall c z s,
  wf_dag (c_dag c) -> reachable c z s -> has_after_cycle (c_dag c) ->
  (forall e, In e (trace s) -> ~ job_activity e) /\ (forall er, result s <> RRecord er).
Proof. exact cycle_never_runs. Qed.
Print Assumptions C11_cycle_never_runs.

Example C11_case :
  wf_dag (c_dag (loop 2)) /\ reachable (loop 2) 0 (go (loop 2) [LTick]) /\
  has_after_cycle (c_dag (loop 2)) /\ result (go (loop 2) [LTick]) = RThrow ExcCycle /\
  exists pre l post, trace (go (loop 2) [LTick]) = pre ++ ECycle l :: post.
Proof.
  split; [exact wf_loop|]. split; [apply go_reachable; vm_compute; reflexivity|]. split.
  - exists 1. eapply t_trans with 2; apply t_step; find_in.
  - split; [vm_compute; reflexivity|]. do 3 eexists.
    apply (nth_split_at (trace (go (loop 2) [LTick])) 2). vm_compute. reflexivity.
Qed.

(** * C73 Inherited invalidation names a cause *)

(** after_dep_inval( n, m ): n is invalidated by m in the graph, n's own job has answered
    that it is valid, m has already been reported invalidated (by its own answer or by
    an earlier after_dep_inval), and all of it happens between the answers and the
    first on_tick. *)
Theorem C73_cause_reported : forall c z s pre n m post,
  wf_dag (c_dag c) -> reachable c z s -> trace s = pre ++ EDepInval n m :: post ->
  inval_by (c_dag c) n m /\
  (exists t, In (EInval n VALID t) pre) /\
  ((exists t, In (EInval m INVALID t) pre) \/ exists p, In (EDepInval m p) pre) /\
  (forall k, In k (node_ids (c_dag c)) -> exists v t, In (EInval k v t) pre) /\
  (forall er, ~ In (EOnTick er) pre).
Proof. exact dep_report. Qed.
Print Assumptions C73_cause_reported.

(** It is called at most once per edge. *)
Theorem C73_once_per_edge : forall c z s n m,
  wf_dag (c_dag c) -> reachable c z s -> dep_reports n m (trace s) <= inval_edges (c_dag c) n m.
Proof. exact dep_reports_once. Qed.
Print Assumptions C73_once_per_edge.

Example C73_case :
  wf_dag (c_dag inval_loop) /\ reachable inval_loop 0 (go inval_loop [LTick]) /\
  (exists pre post, trace (go inval_loop [LTick]) = pre ++ EDepInval 3 1 :: post) /\
  (exists pre post, trace (go inval_loop [LTick]) = pre ++ EDepInval 2 3 :: post) /\
  dep_reports 3 2 (trace (go inval_loop [LTick])) = 0 /\ inval_edges (c_dag inval_loop) 3 2 = 1.
Proof.
  split; [apply wf_dagb_wf; vm_compute; reflexivity|]. split; [apply go_reachable; vm_compute; reflexivity|].
  split; [apply in_split; find_in|]. split; [apply in_split; find_in|]. split; vm_compute; reflexivity.
Qed.
