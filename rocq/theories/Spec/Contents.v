(** Vocabulary for the contents of files over the life of a project (C89). *)
From Coq Require Import String Relations.
From Verif Require Import Model.Common Model.Records Model.Jobs Model.TaskSet Model.Dag Model.Sched Model.Exec
     Model.Text Model.Process Spec.Trace Spec.Tasks Spec.Files Spec.Builds.
Open Scope string_scope.
Open Scope nat_scope.
Open Scope list_scope.

Definition contents (f : fs) (q : path) : option string := option_map f_content (f q).

(** What the programs do: the content of a file written for a task, given the contents of
    the inputs of the task, in their order. *)
Definition programs := tid -> list (option string) -> path -> string.

Section Project.
Variable st : store.
Variable P : tid -> Prop.       (* the tasks of the project *)
Variable job : tid -> process.
Variable prog : programs.

(** The tasks say what they do: no two write the same file, and a task transitively depends
    on those that write its inputs. *)
Definition project : Prop :=
  (forall t u q, P t -> P u -> In q (writes (job t)) -> In q (writes (job u)) -> t = u) /\
  (forall t u q, P t -> P u -> In q (p_input (job t)) -> In q (writes (job u)) ->
     clos_trans tid (depends_on st) t u).

(** The files during an execution with the events [tr], [w k] after the first [k] of them.
    Files change only while a job that may write them is running.  A run that ends with
    code 0 has written all its files anew, newer than its inputs, and what it has written is
    what its program makes of the inputs, each read at some time during the run.  A run that
    ends otherwise leaves the task out of date (its retcode file says so, an output is
    missing, ...) or its files as they were. *)
Definition worked (c : config) (w : nat -> fs) (tr : list event) : Prop :=
  forall k e, nth_error tr k = Some e ->
    (forall q, w (S k) q <> w k q ->
       exists n, In n (running (firstn k tr)) /\ In q (writes (job (node_task (c_dag c) n)))) /\
    (forall n o t, e = EEnd n o -> t = node_task (c_dag c) n -> job_code o = 0%Z ->
       made (w (S k)) (job t) /\ dated_since (w 0) (w (S k)) (job t) /\
       exists seen : path -> option string,
         (forall i, In i (p_input (job t)) ->
            exists j, j <= k /\ In n (running (firstn j tr)) /\ seen i = contents (w j) i) /\
         (forall q, In q (p_output (job t)) ->
            contents (w (S k)) q = Some (prog t (map seen (p_input (job t))) q))) /\
    (forall n o t, e = EEnd n o -> t = node_task (c_dag c) n -> job_code o <> 0%Z ->
       stale (w (S k)) (job t) \/ forall q, In q (writes (job t)) -> w (S k) q = w 0 q).

(** Between executions: files that no task writes are edited or created, not dated before the
    other files; files that tasks write are removed. *)
Definition touched (f f' : fs) : Prop :=
  forall q, f' q <> f q ->
    (exists t, P t /\ In q (writes (job t)) /\ f' q = None) \/
    ((forall t, P t -> ~ In q (writes (job t))) /\
     exists x, f' q = Some x /\ forall q1 y, f q1 = Some y -> (f_time y <= f_time x)%Z).

(** The life of a project: edits, and executions of any sets and filters, finished,
    destroyed or abandoned at a moment when no job is being executed. *)
Inductive life (f0 : fs) : fs -> Prop :=
| life_start : life f0 f0
| life_touch f f' : life f0 f -> touched f f' -> life f0 f'
| life_exec f fmt ts filt addr c z s w :
    life f0 f -> (forall t, selected st ts filt t -> P t) ->
    execution_of st ts filt (process_checks fmt f job) addr c -> reachable c z s ->
    running (trace s) = [] ->
    w 0 = f -> worked c w (trace s) -> life f0 (w (List.length (trace s))).

(** The content a file has to have, given the files [f]: a file that is not an output keeps
    its content, an output is what its program makes of what the inputs have to be. *)
Inductive wanted (f : fs) : path -> option string -> Prop :=
| wanted_source q : (forall t, P t -> ~ In q (p_output (job t))) -> wanted f q (contents f q)
| wanted_output t q cs :
    P t -> In q (p_output (job t)) -> wanted_all f (p_input (job t)) cs -> wanted f q (Some (prog t cs q))
with wanted_all (f : fs) : list path -> list (option string) -> Prop :=
| wanted_nil : wanted_all f [] []
| wanted_cons q c qs cs : wanted f q c -> wanted_all f qs cs -> wanted_all f (q :: qs) (c :: cs).
End Project.
