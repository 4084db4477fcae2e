(** Vocabulary for the use of job objects and for graphs filled by several calls of
    insert_set. *)
From Coq Require Import String.
From Verif Require Import Model.Common Model.Records Model.Jobs Model.TaskSet Model.Dag
     Model.Sched Model.Exec Model.ExecSet Spec.Graph Spec.Trace Spec.Tasks.
Open Scope string_scope.
Open Scope nat_scope.
Open Scope list_scope.

(** What is done with the job object of a task: is_invalidated is called (on the thread that
    ticks), run is entered and run is left (on any thread). *)
Inductive job_call := CallAsk | CallBegin | CallEnd.
Definition job_use (e : event) : option (nid * job_call) :=
  match e with
  | EAsk n => Some (n, CallAsk)
  | EBegin n => Some (n, CallBegin)
  | EEnd n _ => Some (n, CallEnd)
  | _ => None
  end.
(** The calls on the job of task [t], by whatever node of the graph, oldest first. *)
Fixpoint job_calls (g : dag) (t : tid) (tr : list event) : list job_call :=
  match tr with
  | [] => []
  | e :: r =>
      match job_use e with
      | Some (n, k) => if node_task g n =? t then k :: job_calls g t r else job_calls g t r
      | None => job_calls g t r
      end
  end.
(** is_invalidated is called once, run later and once. *)
Definition one_use : list job_call := [CallAsk; CallBegin; CallEnd].
Definition begins_with (l p : list job_call) : Prop := exists r, l = p ++ r.

(** One call of insert_set: the set, the filter, and where the nodes it makes are. *)
Record insertion := Insertion { i_set : task_set; i_filter : string; i_addr : tid -> nid }.
Definition picks (st : store) (i : insertion) (t : tid) : Prop := selected st (i_set i) (i_filter i) t.

(** [g] is an empty graph on which these calls were made, the latest first. *)
Inductive assembled (st : store) : list insertion -> dag -> Prop :=
| assembled_none : assembled st [] dag0
| assembled_more js g i g' n ord1 ord2 :
    assembled st js g ->
    some_order ord1 -> some_order ord2 -> ordered (i_set i) -> owned (i_set i) ->
    fresh_nodes g (i_addr i) (picks st i) ->
    insert_set g st (i_set i) (i_filter i) (i_addr i) ord1 ord2 = Built (g', n) ->
    assembled st (i :: js) g'.

(** An execution of the graph [g]. *)
Definition exec_graph (st : store) (g : dag) (threads : nat) (iv : tid -> inval_answer) : config :=
  Config g threads (st_get st) (fun n => iv (node_task g n)).
