(** Graphs and executions that differ in the names of the nodes only (C109). *)
From Coq Require Import String.
From Verif Require Import Model.Common Model.Records Model.Jobs Model.TaskSet Model.Dag
     Model.Sched Model.Exec Spec.Tasks.
Open Scope nat_scope.
Open Scope list_scope.

Definition same_but_names (g1 g2 : dag) : Prop :=
  map (fun x => (n_id x, n_task x)) (d_nodes g1) = map (fun x => (n_id x, n_task x)) (d_nodes g2) /\
  d_edges g1 = d_edges g2.

(** The same execution, of a graph that differs in names only. *)
Record only_names (c1 c2 : config) : Prop := {
  on_graph : same_but_names (c_dag c1) (c_dag c2);
  on_threads : c_threads c1 = c_threads c2;
  on_task : forall t, c_task c1 t = c_task c2 t;
  on_answer : forall n, c_inval c1 n = c_inval c2 n
}.

(** A record, and an event, with the names of the records replaced by those of [nm]. *)
Definition named (nm : nid -> string) (r : run_record) : run_record :=
  RunRecord (r_node r) (r_task r) (nm (r_node r)) (r_status r) (r_retcode r) (r_start r) (r_end r) (r_output r).
Definition named_all (nm : nid -> string) (er : exec_record) : exec_record :=
  ExecRecord (er_stats er) (er_total er) (map (named nm) (er_runs er)).
Definition event_named (nm : nid -> string) (e : event) : event :=
  match e with
  | EOnTick er => EOnTick (named_all nm er)
  | EBeforeRun er n => EBeforeRun (named_all nm er) n
  | EAfterRun er r n => EAfterRun (named_all nm er) (named nm r) n
  | EAfterExec er => EAfterExec (named_all nm er)
  | e => e
  end.
Definition result_named (nm : nid -> string) (r : result_of) : result_of :=
  match r with RRecord er => RRecord (named_all nm er) | r => r end.

(** The set holds [t] under a name that contains the filter. *)
Definition picked (ts : task_set) (filt : string) (t : tid) : Prop :=
  exists p, holds ts p t /\ substring filt (full_name p).
