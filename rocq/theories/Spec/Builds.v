(** Vocabulary for the properties about several executions of the same tasks. *)
From Coq Require Import String Relations.
From Verif Require Import Model.Common Model.Records Model.Jobs Model.TaskSet Model.Sched Model.Exec
     Model.Text Model.Process Model.JobTypes Spec.Tasks Spec.Trace Spec.Files.
Open Scope string_scope.
Open Scope list_scope.

(** All files the process writes exist, dated no earlier than any file of [f0]. *)
Definition dated_since (f0 f : fs) (p : process) : Prop :=
  forall q, In q (writes p) -> exists x, f q = Some x /\ forall q0 y, f0 q0 = Some y -> (f_time y <= f_time x)%Z.

(** As [Files.file_history], and in addition a run that ends with code 0 has written all its
    files anew, and one that ends with another code has said so in its retcode file, if it
    has one. *)
Inductive build_history (pr : nid -> process) (f0 : fs) : list event -> fs -> Prop :=
| bh_start : build_history pr f0 [] f0
| bh_event tr e f f' :
    build_history pr f0 tr f ->
    (forall q, f' q <> f q -> exists n, In n (running tr) /\ In q (writes (pr n))) ->
    (forall n o, e = EEnd n o -> job_code o = 0%Z -> made f' (pr n) /\ dated_since f0 f' (pr n)) ->
    (forall n o, e = EEnd n o -> job_code o <> 0%Z -> p_retcode (pr n) <> None -> last_run_bad f' (pr n)) ->
    build_history pr f0 (tr ++ [e]) f'.

(** No two selected tasks write the same file. *)
Definition own_files (st : store) (ts : task_set) (filt : string) (job : tid -> process) : Prop :=
  forall t u q, selected st ts filt t -> selected st ts filt u ->
    In q (writes (job t)) -> In q (writes (job u)) -> t = u.

(** A selected task transitively depends on those that write its inputs. *)
Definition reads_of_deps (st : store) (ts : task_set) (filt : string) (job : tid -> process) : Prop :=
  forall t u q, selected st ts filt t -> selected st ts filt u ->
    In q (p_input (job t)) -> In q (writes (job u)) -> clos_trans tid (depends_on st) t u.

(** Who depends on, or is invalidated by, a task reads an output of it. *)
Definition backed_by_files (st : store) (ts : task_set) (filt : string) (job : tid -> process) : Prop :=
  forall t u, selected_inval st ts filt t u -> exists q, In q (p_output (job u)) /\ In q (p_input (job t)).

(** The job of the node was executed and ended with code 0. *)
Definition succeeded (tr : list event) (n : nid) : Prop :=
  exists o, In (EEnd n o) tr /\ job_code o = 0%Z.
Definition went_wrong (tr : list event) (n : nid) : Prop :=
  exists o, In (EEnd n o) tr /\ job_code o <> 0%Z.

(** Some files were edited or created: the others are as in [f1], and they are not older than
    any file of [f1]. *)
Definition edited (f1 f2 : fs) : Prop :=
  forall q, f2 q <> f1 q -> exists x, f2 q = Some x /\ forall q1 y, f1 q1 = Some y -> (f_time y <= f_time x)%Z.
