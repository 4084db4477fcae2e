(** Concrete cases used to show that the hypotheses of the theorems can be met. *)
From Coq Require Import String.
From Verif Require Import Model.Common Model.Records Model.Jobs Model.TaskSet Model.Dag
     Model.Sched Model.Exec Spec.Graph Spec.Trace.
Open Scope string_scope.
Open Scope nat_scope.
Open Scope list_scope.

(** Six tasks: lib depends on gen, app on lib, test on app; doc runs after gen; lint is
    alone.  lib, app and doc use resource 7. *)
Definition demo_tasks (t : tid) : task :=
  match t with
  | 1 => Task true [] [] [] [] false                 (* gen *)
  | 2 => Task true [1] [] [] [7] false               (* lib *)
  | 3 => Task true [2] [] [] [7] false               (* app *)
  | 4 => Task true [] [1] [] [7] false               (* doc *)
  | 5 => Task true [3] [] [] [] false                (* test *)
  | 6 => Task true [] [] [] [] false                 (* lint *)
  | _ => Task false [] [] [] [] false
  end.
Definition demo_store : store := Store [1; 2; 3; 4; 5; 6] demo_tasks.
Definition demo_set : task_set :=
  TaskSet [("app", 3); ("doc", 4); ("gen", 1)] [("src", TaskSet [("lib", 2); ("lint", 6); ("test", 5)] [])].

(** The graph insert_set makes of it (node of task t at address t). *)
Definition demo_dag : dag :=
  match insert_set dag0 demo_store demo_set "" (fun t => t) (fun l => l) (fun l => l) with
  | Built (g, _) => g
  | _ => dag0
  end.

(** gen and lint say they are invalidated, the others that they are not. *)
Definition demo_inval (n : nid) : inval_answer :=
  if (n =? 1) || (n =? 6) then IvRet true "changed" else IvRet false "".
Definition demo (k : nat) : config := Config demo_dag k demo_tasks demo_inval.

Definition ok : job_outcome := JRet (RunResult 0 [Chunk STANDARD "done"] "").
Definition failing : job_outcome := JRet (RunResult 2 [Chunk ERROR "boom"] "").
Definition all_ok (n : nid) : job_outcome := ok.
Definition lib_fails (n : nid) : job_outcome := if n =? 2 then failing else ok.

(** A history that lets every job begin and end as soon as it can; [k] labels at most. *)
Definition first_step (c : config) (s : state) (ls : list label) : option (label * state) :=
  fold_right (fun l r => match step c s l with Some s' => Some (l, s') | None => r end) None ls.
Fixpoint drive (c : config) (o : nid -> job_outcome) (k : nat) (s : state) : list label :=
  match k with
  | O => []
  | S k =>
      if done s then []
      else match first_step c s (map LBegin (node_ids (c_dag c)) ++
                                 map (fun n => LEnd n (o n)) (node_ids (c_dag c)) ++ [LCtl; LTick]) with
           | Some (l, s') => l :: drive c o k s'
           | None => []
           end
  end.
Definition go (c : config) (ls : list label) : state :=
  match run_labels c (init 0) ls with Some s => s | None => init 0 end.
Definition demo_run (k : nat) (o : nid -> job_outcome) : list label := drive (demo k) o 60 (init 0).
Definition demo_end (k : nat) (o : nid -> job_outcome) : state := go (demo k) (demo_run k o).

(** Two threads; both gen and lint are being executed. *)
Definition busy_labels : list label :=
  [LTick; LCtl; LTick; LCtl; LCtl; LCtl; LTick; LCtl; LCtl; LBegin 1; LBegin 6].
Definition demo_busy : state := go (demo 2) busy_labels.

(** Two nodes, each to run after the other. *)
Definition loop_dag : dag :=
  Dag [DNode 1 "a" 1; DNode 2 "b" 1] [Edge 1 2 AFTER; Edge 2 1 AFTER].
Definition loop (k : nat) : config := Config loop_dag k demo_tasks demo_inval.
