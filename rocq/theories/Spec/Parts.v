(** Vocabulary for building in parts (C83): executions one after the other, each of some task
    set with some filter, all over the same tasks and files. *)
From Coq Require Import String Relations.
From Verif Require Import Model.Common Model.Records Model.Jobs Model.TaskSet Model.Dag Model.Sched Model.Exec
     Model.Text Model.Process Spec.Trace Spec.Tasks Spec.Files.
Open Scope string_scope.
Open Scope list_scope.

(** One execution: what it was asked for, the node of each task, and what happened. *)
Record part := Part { pt_set : task_set; pt_filter : string; pt_addr : tid -> nid; pt_trace : list event }.

Definition in_part (st : store) (b : part) (t : tid) : Prop := selected st (pt_set b) (pt_filter b) t.
Definition in_some_part (st : store) (bs : list part) (t : tid) : Prop := exists b, In b bs /\ in_part st b t.
Definition executed_in (b : part) (t : tid) : Prop := In (EBegin (pt_addr b t)) (pt_trace b).

(** The executions [bs], each finished without a failed task, took the files from [f0] to
    [f]; each checked the files the ones before had left. *)
Inductive built_in_parts (st : store) (job : tid -> process) (f0 : fs) : list part -> fs -> Prop :=
| bp_none : built_in_parts st job f0 [] f0
| bp_next bs f fmt ts filt addr c z s er f' :
    built_in_parts st job f0 bs f ->
    execution_of st ts filt (process_checks fmt f job) addr c ->
    reachable c z s -> result s = RRecord er -> (forall r, In r (er_runs er) -> r_status r <> FAIL) ->
    file_history (fun n => job (node_task (c_dag c) n)) f (trace s) f' ->
    built_in_parts st job f0 (bs ++ [Part ts filt addr (trace s)]) f'.

(** The tasks [P] say what they do: no two write the same file, a task transitively depends
    on those that write its inputs, and the other inputs exist. *)
Definition files_declared (st : store) (P : tid -> Prop) (f : fs) (job : tid -> process) : Prop :=
  (forall t u q, P t -> P u -> In q (writes (job t)) -> In q (writes (job u)) -> t = u) /\
  (forall t u q, P t -> P u -> In q (p_input (job t)) -> In q (writes (job u)) -> clos_trans tid (depends_on st) t u) /\
  (forall t q, P t -> In q (p_input (job t)) -> (forall u, P u -> ~ In q (writes (job u))) -> f q <> None).

(** A part contains what its tasks are invalidated by (what they depend on it contains
    anyway). *)
Definition self_contained (st : store) (b : part) : Prop :=
  forall t u, in_part st b t -> In u (t_invalidated_by (st_get st t)) -> in_part st b u.
