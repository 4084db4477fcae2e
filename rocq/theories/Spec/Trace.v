(** Vocabulary for histories of an execution, used in the statements of the
    properties. *)
From Coq Require Import String.
From Verif Require Import Model.Common Model.Records Model.Jobs Model.TaskSet Model.Dag
     Model.Sched Model.Exec Spec.Graph.
Open Scope string_scope.
Open Scope nat_scope.
Open Scope list_scope.

(** [s] can be reached from the creation of the execution at time [z]: some finite
    sequence of client calls, control-thread, job-thread and clock steps leads to it. *)
Definition reachable (c : config) (z : Z) (s : state) : Prop :=
  exists ls, run_labels c (init z) ls = Some s.

(** Everything observable that happened, oldest first. *)
Definition trace (s : state) : list event := rev (s_log s).

(** The run records handed to after_run, oldest first. *)
Fixpoint records (tr : list event) : list run_record :=
  match tr with
  | [] => []
  | EAfterRun _ r _ :: t => r :: records t
  | _ :: t => records t
  end.

Definition recorded (tr : list event) (n : nid) : Prop :=
  exists r, In r (records tr) /\ r_node r = n.

(** The jobs being executed after the events [tr]. *)
Definition track (rs : list nid) (e : event) : list nid :=
  match e with
  | EBegin n => n :: rs
  | EEnd n _ => set_erase n rs
  | _ => rs
  end.
Definition running (tr : list event) : list nid := fold_left track tr [].

(** What the record of an executed task must show for the outcome of its job: the code
    and output it returned, or code 1 and one error chunk if it threw; and the log text
    it returned, none if it threw. *)
Definition job_code (o : job_outcome) : Z :=
  match o with JRet r => rr_retcode r | JThrowStd _ | JThrowOther => 1 end.
Definition job_output (o : job_outcome) : list output_chunk :=
  match o with
  | JRet r => rr_output r
  | JThrowStd w => [Chunk ERROR ("job run failed due to exception: " ++ w)]
  | JThrowOther => [Chunk ERROR "job run failed due to an unknown exception"]
  end.
Definition job_log (o : job_outcome) : string :=
  match o with JRet r => rr_log r | JThrowStd _ | JThrowOther => "" end.

Definition is_bad (st : run_status) : bool :=
  match st with FAIL | DEPF => true | _ => false end.

Definition count_status (k : run_status) (rs : list run_record) : nat :=
  List.length (filter (fun r => status_eqb (r_status r) k) rs).

(** The record [er] accounts for exactly the run records [rs] of the graph. *)
Definition accounts (c : config) (rs : list run_record) (er : exec_record) : Prop :=
  er_runs er = rs /\ er_total er = List.length (node_ids (c_dag c)) /\
  forall k, stat_get (er_stats er) k = count_status k rs.

(** Some task that [n] requires has a record that is FAIL or DEPF. *)
Definition bad_requirement (c : config) (tr : list event) (n : nid) : Prop :=
  exists b r, requires (c_dag c) n b /\ In r (records tr) /\ r_node r = b
              /\ is_bad (r_status r) = true.

(** The exec_record a callback is given, if any. *)
Definition shown_record (e : event) : option exec_record :=
  match e with
  | EOnTick er | EBeforeRun er _ | EAfterRun er _ _ | EAfterExec er => Some er
  | _ => None
  end.

(** How often after_dep_inval( n, m ) was called. *)
Definition dep_reports (n m : nid) (tr : list event) : nat :=
  List.length (filter (fun e => match e with EDepInval a b => (a =? n) && (b =? m) | _ => false end) tr).

(** Callbacks that concern one node, numbered in the order they are documented:
    0 after_node_enque, 1 after_job_is_inval, 2 before_run, 3 on_run_log, 4 after_run
    (for the record of that node). *)
Definition stage (n : nid) (e : event) : option nat :=
  match e with
  | EEnque m => if m =? n then Some 0 else None
  | EInval m _ _ => if m =? n then Some 1 else None
  | EBeforeRun _ m => if m =? n then Some 2 else None
  | ERunLog m _ => if m =? n then Some 3 else None
  | EAfterRun _ r _ => if r_node r =? n then Some 4 else None
  | _ => None
  end.
Fixpoint stages (n : nid) (tr : list event) : list nat :=
  match tr with
  | [] => []
  | e :: t => match stage n e with Some k => k :: stages n t | None => stages n t end
  end.

(** [n]'s job was launched and has not ended. *)
Definition outstanding (tr : list event) (n : nid) : Prop :=
  In (ELaunch n) tr /\ ~ exists o, In (EEnd n o) tr.

(** A job of this execution was started, is being executed or has been executed. *)
Definition job_activity (e : event) : Prop :=
  match e with ELaunch _ | EBegin _ | EEnd _ _ => True | _ => False end.

(** Events have only been added. *)
Definition extends (s s' : state) (new : list event) : Prop := trace s' = trace s ++ new.

(** Calls of tick() in a history. *)
Definition is_tick (l : label) : bool := match l with LTick => true | _ => false end.
Definition ticks (ls : list label) : nat := List.length (filter is_tick ls).
(** What the client and the control thread do, as opposed to job threads and clock. *)
Definition moves (ls : list label) : nat :=
  List.length (filter (fun l => negb (env_label l)) ls).
(** Polls that found the job still running. *)
Definition is_timeout (e : event) : bool := match e with ETimeout _ => true | _ => false end.
Definition timeouts (tr : list event) : nat := List.length (filter is_timeout tr).

(** The clock never goes backwards: it shows [z] at the beginning of the history. *)
Fixpoint monotone_clock (z : Z) (ls : list label) : Prop :=
  match ls with
  | [] => True
  | LClock z' :: r => (z <= z')%Z /\ monotone_clock z' r
  | _ :: r => monotone_clock z r
  end.

(** An execution that goes on for ever. *)
Definition infinite_run (c : config) (z : Z) (st : nat -> state) (lab : nat -> label) : Prop :=
  st 0 = init z /\ forall i, step c (st i) (lab i) = Some (st (S i)).
(** The client and the control thread are never held up for ever. *)
Definition keeps_moving (lab : nat -> label) : Prop :=
  forall i, exists j, i <= j /\ env_label (lab j) = false.
(** Every job that is launched ends at some time. *)
Definition jobs_end (st : nat -> state) : Prop :=
  forall i n, In (ELaunch n) (trace (st i)) -> exists j o, In (EEnd n o) (trace (st j)).

(** [n] has not been started, all it must run after is recorded, and no task whose job
    was launched and is not recorded yet holds one of its resources. *)
Definition could_run (c : config) (tr : list event) (n : nid) : Prop :=
  In n (node_ids (c_dag c)) /\ (forall er, ~ In (EBeforeRun er n) tr) /\
  (forall m, runs_after (c_dag c) n m -> recorded tr m) /\
  (forall h r, In (ELaunch h) tr -> ~ recorded tr h -> In r (node_res c n) -> ~ In r (node_res c h)).

(** Calls of on_tick, and whether before_run was called for a task. *)
Definition is_on_tick (e : event) : bool := match e with EOnTick _ => true | _ => false end.
Definition on_ticks (tr : list event) : nat := List.length (filter is_on_tick tr).
Definition task_begun (tr : list event) (n : nid) : Prop := exists er, In (EBeforeRun er n) tr.
(** From [s1] on the labels [ls] are possible, and happen inside the call of tick(). *)
Definition inside_tick (c : config) (s1 : state) (ls : list label) : Prop :=
  forall p q s', ls = p ++ q -> q <> [] -> run_labels c s1 p = Some s' -> tick_running s' = true.
