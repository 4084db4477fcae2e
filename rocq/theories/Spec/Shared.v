(** Vocabulary for executions that share one default visitor. *)
From Coq Require Import String.
From Verif Require Import Model.Common Model.Records Model.Jobs Model.TaskSet Model.Dag
     Model.Sched Model.Exec Model.World Model.Visitor Spec.Graph Spec.Trace.
Open Scope nat_scope.
Open Scope list_scope.

(** The line that says which task is in progress, which is overwritten by what follows. *)
Definition status_line (i : item) : bool := match i with PStart _ _ => true | _ => false end.
(** What is printed but for these lines. *)
Definition lasting (out : list item) : list item := filter (fun i => negb (status_line i)) out.

(** An execution is destroyed only after it has reported its end, or if it began no task. *)
Definition ended_before_destroyed (w : world) : Prop :=
  forall i, In EDestroyed (trace (w i)) ->
    (exists er, In (EAfterExec er) (trace (w i))) \/ (forall n, ~ task_begun (trace (w i)) n).
