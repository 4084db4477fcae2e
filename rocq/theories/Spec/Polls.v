(** Vocabulary for when a job is polled (C115). *)
From Verif Require Import Model.Common Model.Records Model.Jobs Model.TaskSet Model.Dag Model.Sched Model.Exec Spec.Trace.
Open Scope nat_scope.
Open Scope list_scope.

(** The visitor was told that [n] begins (before_run) and not yet that it ended (after_run). *)
Definition is_under_way (tr : list event) (n : nid) : bool :=
  existsb (fun e => match e with EBeforeRun _ m => m =? n | _ => false end) tr &&
  negb (existsb (fun e => match e with EAfterRun _ r _ => r_node r =? n | _ => false end) tr).

(** What had happened at each call of tick(). *)
Fixpoint tick_calls (c : config) (s : state) (ls : list label) : list (list event) :=
  match ls with
  | [] => []
  | l :: r => match step c s l with
              | Some s' => (if is_tick l then [trace s] else []) ++ tick_calls c s' r
              | None => []
              end
  end.
