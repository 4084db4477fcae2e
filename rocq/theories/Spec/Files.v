(** Vocabulary for the properties about process jobs. *)
From Coq Require Import String Relations.
From Verif Require Import Model.Common Model.Records Model.Jobs Model.TaskSet Model.Sched Model.Exec
     Model.Text Model.Process Model.JobTypes Model.FileQueries Model.MovingFiles Spec.Tasks Spec.Trace.
Open Scope string_scope.
Open Scope list_scope.

(** The rule of make: there is no output, or a missing one, or one that is not strictly
    newer than some input. *)
Definition out_of_date (f : fs) (p : process) : Prop :=
  p_output p = [] \/
  (exists o, In o (p_output p) /\ f o = None) \/
  (exists o i xo xi, In o (p_output p) /\ In i (p_input p) /\ f o = Some xo /\ f i = Some xi /\
                     (f_time xo <= f_time xi)%Z).

(** The retcode file says that the last run failed, or is missing. *)
Definition last_run_bad (f : fs) (p : process) : Prop :=
  exists rf, p_retcode p = Some rf /\
    (f rf = None \/ exists x, f rf = Some x /\ read_retcode x <> 0%Z).

Definition stale (f : fs) (p : process) : Prop := last_run_bad f p \/ out_of_date f p.

(** There is an input unless there is no output, every input exists, and if an output is
    missing the times of the existing ones are after the epoch of the file clock. *)
Definition regular (f : fs) (p : process) : Prop :=
  p_output p = [] \/
  (p_input p <> [] /\
   (forall i, In i (p_input p) -> f i <> None) /\
   ((exists o, In o (p_output p) /\ f o = None) ->
    forall o x, In o (p_output p) -> f o = Some x -> (0 < f_time x)%Z)).

(** The date of a file; that of a missing one is the epoch of the file clock. *)
Definition date (f : fs) (q : path) : Z := match f q with Some x => f_time x | None => 0%Z end.

(** When exactly the check answers "invalidated": as [stale], except that without inputs
    existing outputs count, that a missing output counts only if all outputs before it are
    dated after the epoch and none after it is dated before the epoch, and that missing files
    are compared as if dated at the epoch. *)
Definition noticed (f : fs) (p : process) : Prop :=
  last_run_bad f p \/ p_output p = [] \/
  (p_output p <> [] /\ p_input p = [] /\ forall o, In o (p_output p) -> f o <> None) \/
  (p_input p <> [] /\
   ((exists l1 o l2, p_output p = l1 ++ o :: l2 /\ f o = None /\
       (forall q, In q l1 -> (0 < date f q)%Z) /\ (forall q, In q l2 -> (0 <= date f q)%Z)) \/
    (exists o i, In o (p_output p) /\ In i (p_input p) /\ (date f o <= date f i)%Z))).

(** The answer of the check. *)
Definition invalidated (f : fs) (p : process) : Prop :=
  forall fmt, iv_invalidated (is_invalidated fmt f p) = true.

(** The program was started, its output was read to the end, and it exited with [code]. *)
Definition completed (e : sub) (code : Z) : Prop :=
  ec_value (sb_start e) = 0%Z /\ ec_value (sb_drain e) = 0%Z /\
  fst (sb_exit e) = code /\ ec_value (snd (sb_exit e)) = 0%Z.

(** A piece of captured output as it is reported. *)
Definition captured (c : bool * string) : output_chunk :=
  Chunk (if fst c then STANDARD else ERROR) (snd c).

Definition is_int (z : Z) : Prop := (-2147483648 <= z <= 2147483647)%Z.

(** Parts of an argument list of derive. *)
Definition arg_text (a : darg) : string := match a with DStr s => s | DPath p => p | DOut p => p end.
Definition arg_input (a : darg) : list path := match a with DPath p => [p] | _ => [] end.
Definition arg_output (a : darg) : list path := match a with DOut p => [p] | _ => [] end.

Definition has_space (s : string) : Prop := exists a b, s = (a ++ " " ++ b)%string.
Definition ends_with_backslash (s : string) : Prop := exists r, s = (r ++ "\")%string.

(** Tasks whose jobs are the processes [job t], looking at the file system [f]. *)
Definition process_checks (fmt : Z -> string) (f : fs) (job : tid -> process) (t : tid) : inval_answer :=
  IvRet (iv_invalidated (is_invalidated fmt f (job t))) (iv_log (is_invalidated fmt f (job t))).

(** The process of the task, or that of one it transitively depends on or is invalidated
    by, is stale. *)
Definition must_run (st : store) (ts : task_set) (filt : string) (f : fs) (job : tid -> process)
           (t : tid) : Prop :=
  exists u, clos_refl_trans tid (selected_inval st ts filt) t u /\ stale f (job u).

(** The same with the answers of the checks. *)
Definition runs_here (st : store) (ts : task_set) (filt : string) (f : fs) (job : tid -> process)
           (t : tid) : Prop :=
  exists u, clos_refl_trans tid (selected_inval st ts filt) t u /\ noticed f (job u).

(** Same for tasks with any of the library's job types. *)
Definition job_checks (fmt : Z -> string) (f : fs) (jb : tid -> JobTypes.job) (t : tid) : inval_answer :=
  JobTypes.job_is_invalidated fmt f (jb t).

(** Staleness is noticed: there is an input unless there is no output, and if an output is
    missing the times of the existing ones are after the epoch of the file clock. *)
Definition detectable (f : fs) (p : process) : Prop :=
  p_output p = [] \/
  (p_input p <> [] /\
   ((exists o, In o (p_output p) /\ f o = None) ->
    forall o x, In o (p_output p) -> f o = Some x -> (0 < f_time x)%Z)).

(** The files a run of the process may change. *)
Definition writes (p : process) : list path :=
  p_output p ++ match p_retcode p with Some rf => [rf] | None => [] end.

(** What a successful run is for: the outputs exist and are newer than the inputs, and the
    retcode file says 0. *)
Definition made (f : fs) (p : process) : Prop :=
  (forall rf, p_retcode p = Some rf -> exists x, f rf = Some x /\ read_retcode x = 0%Z) /\
  (forall o, In o (p_output p) -> f o <> None) /\
  (forall o i xo xi, In o (p_output p) -> In i (p_input p) -> f o = Some xo -> f i = Some xi ->
                     (f_time xi < f_time xo)%Z).

(** The file system during an execution whose node [n] runs the process [pr n]: it is [f0] at
    the beginning and [f] after the events [tr].  Files change only while a job that
    may change them is running, and a run that ends with code 0 has done its work. *)
Inductive file_history (pr : nid -> process) (f0 : fs) : list event -> fs -> Prop :=
| fh_start : file_history pr f0 [] f0
| fh_event tr e f f' :
    file_history pr f0 tr f ->
    (forall q, f' q <> f q -> exists n, In n (running tr) /\ In q (writes (pr n))) ->
    (forall n o, e = EEnd n o -> job_code o = 0%Z -> made f' (pr n)) ->
    file_history pr f0 (tr ++ [e]) f'.

(** The tasks say what they do: no two write the same file, a task transitively depends on
    those that write its inputs, and the other inputs exist. *)
Definition declares_files (st : store) (ts : task_set) (filt : string) (f : fs) (job : tid -> process) : Prop :=
  (forall t u q, selected st ts filt t -> selected st ts filt u ->
     In q (writes (job t)) -> In q (writes (job u)) -> t = u) /\
  (forall t u q, selected st ts filt t -> selected st ts filt u ->
     In q (p_input (job t)) -> In q (writes (job u)) -> clos_trans tid (depends_on st) t u) /\
  (forall t q, selected st ts filt t -> In q (p_input (job t)) ->
     (forall u, selected st ts filt u -> ~ In q (writes (job u))) -> f q <> None).

(** * File queries that fail *)

(** The answers given are true of the file system [f]. *)
Definition true_of (q : queries) (f : fs) : Prop := forall p,
  (forall b, q_exists q p = Some b -> b = true <-> f p <> None) /\
  (forall t x, q_time q p = Some t -> f p = Some x -> t = f_time x) /\
  (forall x, f p = Some x -> q_retcode q p = read_retcode x).
(** A query about the path fails. *)
Definition query_fails (q : queries) (p : path) : Prop :=
  q_exists q p = None \/ (q_exists q p = Some true /\ q_time q p = None).
(** The files a check may look at. *)
Definition looks_at (p : process) : list path :=
  p_output p ++ p_input p ++ match p_retcode p with Some rf => [rf] | None => [] end.
(** Tasks with any of the library's job types, when queries may fail. *)
Definition job_checks_q (fmt : Z -> string) (q : queries) (jb : tid -> JobTypes.job) (t : tid) : inval_answer :=
  q_job_is_invalidated fmt q (jb t).

(** * Files that change during a check *)

(** The queries tell what is in the file system [f] at that moment, unless they fail. *)
Definition answers_of (q : queries) (f : fs) : Prop := forall p,
  (forall b, q_exists q p = Some b -> b = true <-> f p <> None) /\
  (forall t, q_time q p = Some t -> exists x, f p = Some x /\ t = f_time x) /\
  q_retcode q p = match f p with Some x => read_retcode x | None => 0%Z end.
(** The files are as in [w k] when query number [k] is made. *)
Definition answered_at (qs : nat -> queries) (w : nat -> fs) : Prop := forall k, answers_of (qs k) (w k).
(** A file only ever gets newer; one that does not exist counts as of time 0. *)
Definition only_newer (w : nat -> fs) (i : path) : Prop := forall k,
  (path_to_write_time (w k) i <= path_to_write_time (w (S k)) i)%Z.
(** The file stays as it is. *)
Definition untouched (w : nat -> fs) (o : path) : Prop := forall k, w k o = w 0 o.
