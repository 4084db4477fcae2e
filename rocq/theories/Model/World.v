(** Several executions in one program. *)
From Verif Require Import Model.Common Model.Records Model.Jobs Model.TaskSet Model.Dag
     Model.Sched Model.Exec.
Open Scope nat_scope.
Open Scope list_scope.

(** An exec_coro owns its frame (exec_coro.cpp:30-45), and everything exec uses is a
    parameter taken by value or a local of that frame (exec.cpp:295-342): the graph, its node
    flags, used_resources, coros with their futures, and erec.  So executions share nothing
    but the task objects and the visitor, and a step of the program is a step of one of them.
    One that is created later is one that is not ticked until then. *)
Definition world := nat -> state.
Definition world_init (z : Z) : world := fun _ => init z.
Definition world_step (cs : nat -> config) (w : world) (a : nat * label) : option world :=
  match step (cs (fst a)) (w (fst a)) (snd a) with
  | Some s => Some (upd w (fst a) s)
  | None => None
  end.
Fixpoint run_world (cs : nat -> config) (w : world) (ls : list (nat * label)) : option world :=
  match ls with
  | [] => Some w
  | a :: r => match world_step cs w a with Some w' => run_world cs w' r | None => None end
  end.
