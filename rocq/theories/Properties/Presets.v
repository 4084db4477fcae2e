(** C86: executions of a graph whose node flags the owner of the graph has set before.
    [f n]: the flags of node [n] when exec gets the graph. *)
From Coq Require Import String.
From Verif Require Import Model.Common Model.Records Model.Jobs Model.TaskSet Model.Dag
     Model.Sched Model.Exec Model.Preset Spec.Graph Spec.Trace Properties.Demo.
From Verif Require Import Proofs.PresetFacts Proofs.PresetSame.
Open Scope string_scope.
Open Scope nat_scope.
Open Scope list_scope.

(** [invalidated] may be anything: what happens and what is returned is what happens and is
    returned without it, so all other theorems about executions apply. *)
Theorem C86_invalidated_ignored : forall c f z ls s,
  (forall n, ns_started (f n) = false /\ ns_done (f n) = false /\ ns_failed (f n) = false) ->
  (forall n, ~ In n (node_ids (c_dag c)) -> ns_inval (f n) = UNKNOWN) ->
  run_labels c (init_with f z) ls = Some s ->
  exists s', run_labels c (init z) ls = Some s' /\ trace s' = trace s /\ result s' = result s /\
             s_pc s' = s_pc s.
Proof. exact inval_ignored. Qed.
Print Assumptions C86_invalidated_ignored.

(** With a node marked as started or as done the execution never returns a record, and the
    node is neither announced nor executed. *)
Theorem C86_marked : forall c f z ls s n,
  In n (node_ids (c_dag c)) -> ns_started (f n) = true \/ ns_done (f n) = true ->
  run_labels c (init_with f z) ls = Some s ->
  (forall er, result s <> RRecord er) /\ ~ In (EBegin n) (trace s) /\
  (forall er, ~ In (EBeforeRun er n) (trace s)).
Proof. exact marked_never. Qed.
Print Assumptions C86_marked.

(** A node marked as failed stays so, whatever its job returns: nothing that requires it is
    executed, its records have status DEPF. *)
Theorem C86_failed : forall c f z ls s n b,
  requires (c_dag c) b n -> ns_failed (f n) = true ->
  run_labels c (init_with f z) ls = Some s ->
  ~ In (EBegin b) (trace s) /\
  (forall r, In r (records (trace s)) -> r_node r = b -> r_status r = DEPF).
Proof. exact failed_before. Qed.
Print Assumptions C86_failed.

(** Cases: the demo graph with 2 threads.  gen is node 1, lib is node 2 and requires it. *)
Definition go_with (f : nid -> nstate) (ls : list label) : option state :=
  run_labels (demo 2) (init_with f 0) ls.
Definition end_with (f : nid -> nstate) : option state :=
  go_with f (drive (demo 2) all_ok 80 (init_with f 0)).

(** gen is invalidated, lint is not, says the owner; their jobs say the opposite of the
    latter, and lint is executed. *)
Definition only_inval (n : nid) : nstate :=
  match n with
  | 1 => NState INVALID false false false
  | 6 => NState VALID false false false
  | _ => nstate0
  end.
Example C86_case_inval :
  exists s er, end_with only_inval = Some s /\ result s = RRecord er /\
               In (EBegin 6) (trace s) /\ In (EBegin 1) (trace s).
Proof. do 2 eexists. split; [vm_compute; reflexivity|]. vm_compute. intuition. Qed.

(** gen is marked as done: its dependants run, but the last loop finds nothing to do. *)
Definition gen_done (n : nid) : nstate :=
  match n with 1 => NState UNKNOWN false true false | _ => nstate0 end.
Example C86_case_done :
  In 1 (node_ids (c_dag (demo 2))) /\ ns_done (gen_done 1) = true /\
  exists s, go_with gen_done (drive (demo 2) all_ok 80 (init_with gen_done 0)) = Some s /\
            s_pc s = Bad BadAssert332 /\ List.length (records (trace s)) = 5.
Proof.
  split; [vm_compute; tauto|]. split; [reflexivity|].
  eexists. split; [vm_compute; reflexivity|]. split; reflexivity.
Qed.

(** gen is marked as failed: it is executed and its record says OK, lib's record says DEPF. *)
Definition gen_failed (n : nid) : nstate :=
  match n with 1 => NState UNKNOWN false false true | _ => nstate0 end.
Example C86_case_failed :
  requires (c_dag (demo 2)) 2 1 /\ ns_failed (gen_failed 1) = true /\
  exists s er, end_with gen_failed = Some s /\ result s = RRecord er /\ In (EBegin 1) (trace s) /\
    map r_status (filter (fun r => r_node r =? 1) (er_runs er)) = [OK] /\
    map r_status (filter (fun r => r_node r =? 2) (er_runs er)) = [DEPF].
Proof.
  split; [vm_compute; tauto|]. split; [reflexivity|].
  do 2 eexists. split; [vm_compute; reflexivity|]. split; [reflexivity|].
  split; [vm_compute; intuition|]. split; reflexivity.
Qed.
