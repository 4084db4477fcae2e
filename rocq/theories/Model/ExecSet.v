(** exec on a task set, src/exec.cpp:284-293 *)
From Coq Require Import String.
From Verif Require Import Model.Common Model.Records Model.Jobs Model.TaskSet Model.Dag
     Model.Sched Model.Exec.
Open Scope nat_scope.
Open Scope list_scope.

(** exec.cpp:284-293: an empty dag, insert_set, then exec on the dag.  [iv t] is what
    is_invalidated of the job of task [t] answers; [addr], [ord1], [ord2] as in
    [Dag.insert_set].  (exec on a dag is a coroutine that is initially suspended, so the
    call returns the not yet started execution, [Exec.init], of the configuration.) *)
Definition exec_set (st : store) (ts : task_set) (threads : nat) (filt : string)
           (iv : tid -> inval_answer) (addr : tid -> nid)
           (ord1 : list (string * tid) -> list (string * tid))
           (ord2 : list tid -> list tid) : build config :=
  match insert_set dag0 st ts filt addr ord1 ord2 with
  | Built (g, _) => Built (Config g threads (st_get st) (fun n => iv (node_task g n)))
  | BuildUB => BuildUB
  | BuildFuel => BuildFuel
  end.
