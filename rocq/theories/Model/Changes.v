(** Task objects that change while an execution exists.

    A node holds [const task& t] (dag.hpp:69) and a copy of the full name; edges hold nodes.
    So assignments to a task, its destruction, and insertions into a task set
    between the steps of an execution act on what [n->t] gives from then on, and on nothing
    else.  exec reads [n->t] in exec.cpp:202 (job), 81, 131 and 165 (resources) and, in the lambda,
    139 (job); see Model/Exec.v. *)
From Verif Require Import Model.Common Model.Records Model.Jobs Model.TaskSet Model.Dag
     Model.Sched Model.Exec.
Open Scope nat_scope.
Open Scope list_scope.

Inductive happening :=
| Do (l : label)                        (* a step of the execution *)
| Assign (t : tid) (y : task)           (* the task at address t becomes y; destroyed: y is anything *)
| Answer (n : nid) (a : inval_answer).  (* is_invalidated of n's job would now answer a *)

Definition changed (c : config) (a : happening) : config :=
  match a with
  | Do _ => c
  | Assign t y => Config (c_dag c) (c_threads c) (upd (c_task c) t y) (c_inval c)
  | Answer n x => Config (c_dag c) (c_threads c) (c_task c) (upd (c_inval c) n x)
  end.

(** A history of steps and changes. *)
Fixpoint run_changing (c : config) (s : state) (acts : list happening) : option (config * state) :=
  match acts with
  | [] => Some (c, s)
  | Do l :: r => match step c s l with Some s' => run_changing c s' r | None => None end
  | a :: r => run_changing (changed c a) s r
  end.
