(** A small machine that says which jobs may begin and end, and when.  It knows the
    declared tasks, dependencies, resources and the number of threads; it knows nothing of
    ticks, coroutines, visitors, records or the set of tasks to process. *)
From Verif Require Import Model.Common Model.Records Model.Jobs Model.TaskSet Model.Dag
     Model.Sched Model.Exec Spec.Graph Spec.Trace.
Open Scope nat_scope.
Open Scope list_scope.

(** What happens to jobs. *)
Inductive job_step := Begins (n : nid) | Ends (n : nid) (o : job_outcome).

(** The part of a history that is about jobs beginning and ending. *)
Definition job_part (e : event) : list job_step :=
  match e with EBegin n => [Begins n] | EEnd n o => [Ends n o] | _ => [] end.
Definition jobs (tr : list event) : list job_step := flat_map job_part tr.

(** The jobs that have begun and not ended. *)
Definition follow (l : list nid) (j : job_step) : list nid :=
  match j with Begins n => n :: l | Ends n _ => set_erase n l end.
Definition active (h : list job_step) : list nid := fold_left follow h [].

Section Machine.
Variable c : config.

(** After [h], task [n] counts as failed: its job ended with a code other than 0, or it
    requires a task that counts as failed. *)
Inductive failed_in (h : list job_step) : nid -> Prop :=
| failed_job n o : In (Ends n o) h -> job_code o <> 0%Z -> failed_in h n
| failed_dep n p : requires (c_dag c) n p -> failed_in h p -> failed_in h n.

(** After [h], nothing more is to be expected of [n]: its job has ended, or it is not
    invalidated, or it requires a task that counts as failed. *)
Definition settled (h : list job_step) (n : nid) : Prop :=
  (exists o, In (Ends n o) h) \/ ~ Invalidated c n \/
  exists p, requires (c_dag c) n p /\ failed_in h p.

(** The task set can be executed: no cycle, a job for every task, none of which throws
    when it is asked whether it is invalidated. *)
Definition executable : Prop :=
  acyclic (c_dag c) /\
  forall n, In n (node_ids (c_dag c)) -> node_has_job c n = true /\ c_inval c n <> IvThrow.

(** After [h], it is [n]'s turn: it has not begun, it is invalidated, nothing it requires
    counts as failed, and everything it is to run after, however indirectly, is settled. *)
Definition turn (h : list job_step) (n : nid) : Prop :=
  In n (node_ids (c_dag c)) /\ ~ In (Begins n) h /\ Invalidated c n /\
  (forall p, requires (c_dag c) n p -> ~ failed_in h p) /\
  (forall m, clos_trans nid (runs_after (c_dag c)) n m -> settled h m).

Definition no_shared_resource (a b : nid) : Prop :=
  forall r, In r (node_res c a) -> ~ In r (node_res c b).

(** The machine: a job begins when it is its turn, no active job has one of its resources
    and fewer jobs than threads (one job, if there are no threads) are active; an active
    job may end with any outcome at any time. *)
Inductive machine : list job_step -> Prop :=
| machine_nil : machine []
| machine_begin h n :
    machine h -> executable -> turn h n ->
    (forall m, In m (active h) -> no_shared_resource n m) ->
    List.length (active h) < Nat.max 1 (c_threads c) ->
    machine (h ++ [Begins n])
| machine_end h n o :
    machine h -> In (Begins n) h -> (forall o', ~ In (Ends n o') h) ->
    machine (h ++ [Ends n o]).

(** No two tasks have a resource in common, and there is a thread for every task. *)
Definition plenty : Prop :=
  (forall a b, In a (node_ids (c_dag c)) -> In b (node_ids (c_dag c)) -> a <> b ->
     no_shared_resource a b) /\
  List.length (node_ids (c_dag c)) <= c_threads c.
End Machine.
