(** Nothing happens between two ticks but what jobs do: C23. *)
From Coq Require Import String Lia.
From Verif Require Import Model.Common Model.Records Model.Jobs Model.TaskSet Model.Dag Model.Sched Model.Exec
     Spec.Graph Spec.Trace Properties.Demo Proofs.DemoFacts Proofs.QuietFacts.
Open Scope nat_scope.
Open Scope list_scope.

(** * C23 Only tick() asks jobs, starts them and calls the visitor

    From a state in which no tick is in progress, without a further call of tick(): only jobs
    that were launched before begin and end, whether the object is kept or destroyed. *)
Theorem C23_only_in_tick : forall c ls s s', run_labels c s ls = Some s' -> tick_running s = false ->
  ~ In LTick ls -> (forall k, ~ In (LVisThrow k) ls) ->
  tick_running s' = false /\
  exists new, trace s' = trace s ++ new /\
    forall e, In e new -> (exists n, e = EBegin n) \/ (exists n o, e = EEnd n o) \/ e = EDestroyed.
Proof. exact quiet_between. Qed.
Print Assumptions C23_only_in_tick.

(** Destroyed while a job that was launched has not begun. *)
Example C23_only_in_tick_case :
  let ls1 := [LTick; LCtl; LTick; LCtl; LCtl; LCtl] in
  let ls2 := [LDestroy; LBegin 1; LEnd 1 ok; LCtl; LCtl; LCtl] in
  let s := go (demo 2) ls1 in let s' := go (demo 2) (ls1 ++ ls2) in
  run_labels (demo 2) (init 0) ls1 = Some s /\ run_labels (demo 2) s ls2 = Some s' /\ tick_running s = false /\
  trace s' = trace s ++ [EBegin 1; EEnd 1 ok; EDestroyed].
Proof.
  intros ls1 ls2 s s'. split; [apply go_run; vm_compute; reflexivity|]. split; [vm_compute; reflexivity|].
  split; vm_compute; reflexivity.
Qed.
