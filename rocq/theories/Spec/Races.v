(** Vocabulary for the memory of jobs: threads, happens-before, data races.  Only the
    rules of the C++ standard for std::async, std::future and one thread are used. *)
From Verif Require Import Model.Common Model.Records Model.Jobs Model.TaskSet Model.Dag
     Model.Sched Model.Exec Spec.Graph Spec.Trace.
From Coq Require Import Relation_Operators.
Open Scope nat_scope.
Open Scope list_scope.

(** The thread an event happens on: the client's, which calls tick() and destroys the
    execution, or the one std::async makes for the job of a node.  With thread_count 0
    the jobs are called on the client's thread. *)
Inductive thread := Client | Worker (n : nid).
Definition on_thread (c : config) (e : event) : thread :=
  match e with
  | EBegin n | EEnd n _ => if c_threads c =? 0 then Client else Worker n
  | _ => Client
  end.

(** The earlier event synchronizes with the later one: the call of std::async with the
    start of the job; the end of the job with the return of get(), after which on_run_log
    is called; the end of a job with the end of the destructor of its future. *)
Definition synchronizes (e e' : event) : Prop :=
  match e, e' with
  | ELaunch n, EBegin m => n = m
  | EEnd n _, ERunLog m _ => n = m
  | EEnd _ _, EDestroyed => True
  | _, _ => False
  end.

(** Event number [i] of a history [tr]. *)
Definition at_pos (tr : list event) (i : nat) (e : event) : Prop := nth_error tr i = Some e.

Definition precedes (c : config) (tr : list event) (i j : nat) : Prop :=
  i < j /\ exists e e', at_pos tr i e /\ at_pos tr j e' /\
    (on_thread c e = on_thread c e' \/ synchronizes e e').
Definition happens_before (c : config) (tr : list event) : nat -> nat -> Prop :=
  clos_trans nat (precedes c tr).

(** Events during which the data of the task of node [n] may be used: its job runs from
    EBegin to EEnd, and the visitor is called about it. *)
Definition concerns (e : event) (n : nid) : Prop :=
  match e with
  | EBegin m | EEnd m _ | EBeforeRun _ m | ERunLog m _ => m = n
  | EAfterRun _ r _ => r_node r = n
  | _ => False
  end.
(** Events during which any data may be used: those of the start and of the end. *)
Definition free_access (e : event) : Prop :=
  match e with
  | EEnque _ | ECycle _ | EAsk _ | EInval _ _ _ | EDepInval _ _ | EAfterExec _ | EDestroyed => True
  | _ => False
  end.

Inductive access := Reads | Writes.
Section Sharing.
  Variable loc : Type.
  (** [touches n l k]: the job of [n], or the visitor when called about [n], may read or
      write the memory location [l]. *)
  Variable touches : nid -> loc -> access -> Prop.

  Definition may_access (e : event) (l : loc) (k : access) : Prop :=
    free_access e \/ exists n, concerns e n /\ touches n l k.
  Definition conflict (k k' : access) : Prop := k = Writes \/ k' = Writes.

  (** Two tasks that may conflict are ordered by run-after edges or have a common resource. *)
  Definition disciplined (c : config) : Prop :=
    forall m n l k k', m <> n -> touches m l k -> touches n l k' -> conflict k k' ->
      clos_trans nid (runs_after (c_dag c)) m n \/ clos_trans nid (runs_after (c_dag c)) n m \/
      exists r, In r (node_res c m) /\ In r (node_res c n).

  (** Two conflicting accesses, not ordered by happens-before. *)
  Definition data_race (c : config) (tr : list event) (i j : nat) : Prop :=
    exists e e' l k k', at_pos tr i e /\ at_pos tr j e' /\ i <> j /\
      may_access e l k /\ may_access e' l k' /\ conflict k k' /\
      ~ happens_before c tr i j /\ ~ happens_before c tr j i.
End Sharing.
