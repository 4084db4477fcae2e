(** The record of a task whose job has ended, in any graph (C06), and what becomes of a
    callable that throws, exactly (C27). *)
From Coq Require Import String.
From Verif Require Import Model.Common Model.Records Model.Jobs Model.TaskSet Model.Dag
     Model.Sched Model.Exec Spec.Graph Spec.Trace Properties.Demo Proofs.DemoFacts Proofs.ThrowFacts.
Open Scope string_scope.
Open Scope nat_scope.
Open Scope list_scope.

(** * C06 Status decision rule: whatever the graph, a task whose job has ended is recorded
    with what the job returned. *)
Theorem C06_ended : forall c z s n o r,
  wf_dag (c_dag c) -> reachable c z s -> In (EEnd n o) (trace s) ->
  In r (records (trace s)) -> r_node r = n ->
  r_status r = (if (job_code o =? 0)%Z then OK else FAIL) /\ r_retcode r = job_code o /\ r_output r = job_output o.
Proof. exact ended_record. Qed.
Print Assumptions C06_ended.

(** * C27 Throwing jobs are recorded as failures: exactly when.  [indet] is the value the
    uninitialised return code happens to have. *)
Theorem C27_exactly : forall c z s n indet co r,
  wf_dag (c_dag c) -> reachable c z s ->
  In (EEnd n (traits_run indet co)) (trace s) -> (co = CThrowOther \/ exists w, co = CThrowStd w) ->
  In r (records (trace s)) -> r_node r = n ->
  (r_status r = FAIL <-> co = CThrowOther \/ indet <> 0%Z) /\
  (r_status r = OK <-> co <> CThrowOther /\ indet = 0%Z) /\
  (forall w, co = CThrowStd w -> r_retcode r = indet /\
     r_output r = [Chunk ERROR "Uncaught exception:"; Chunk ERROR w]).
Proof. exact throwing_callable. Qed.
Print Assumptions C27_exactly.

Definition oops_end : state :=
  demo_end 2 (fun n => if n =? 1 then traits_run 7 (CThrowStd "oops") else ok).
Example C27_case_exact : exists r,
  wf_dag (c_dag (demo 2)) /\ reachable (demo 2) 0 oops_end /\
  In (EEnd 1 (traits_run 7 (CThrowStd "oops"))) (trace oops_end) /\
  In r (records (trace oops_end)) /\ r_node r = 1 /\ r_retcode r = 7%Z.
Proof.
  exists (nth 0 (records (trace oops_end)) (RunRecord 0 0 "" OK 0 0 0 [])).
  split; [exact wf_demo|]. split; [apply go_reachable; vm_compute; reflexivity|].
  split; [find_in|]. split; [find_in|vm_compute; auto].
Qed.
