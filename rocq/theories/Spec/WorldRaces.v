(** Happens-before in a program with several executions (C96, C97). *)
From Verif Require Import Model.Common Model.Records Model.Jobs Model.TaskSet Model.Dag
     Model.Sched Model.Exec Model.World Spec.Graph Spec.Trace Spec.World Spec.Races.
From Coq Require Import Relation_Operators.
Open Scope nat_scope.
Open Scope list_scope.

(** Threads: the client's, and those that std::async made for the job of a node of an
    execution.  [home i] is the thread that ticks and destroys execution [i]; a step of it is
    made there, or on the thread of one of its jobs.  The clock moves by itself. *)
Inductive world_thread := TheClient | JobThread (i : nat) (n : nid).
Definition job_thread (cs : nat -> config) (home : nat -> world_thread) (i : nat) (n : nid) : world_thread :=
  if c_threads (cs i) =? 0 then home i else JobThread i n.
Definition step_thread (cs : nat -> config) (home : nat -> world_thread) (a : nat * label) : option world_thread :=
  match snd a with
  | LBegin n | LEnd n _ => Some (job_thread cs home (fst a) n)
  | LClock _ => None
  | _ => Some (home (fst a))
  end.
(** All executions are ticked and destroyed by one thread. *)
Definition one_thread : nat -> world_thread := fun _ => TheClient.

(** Nodes whose run coroutine, which holds the future of the job, exists. *)
Definition frames (s : state) : list nid :=
  map co_node (match s_pc s with
               | Clean _ kept rest => kept ++ map sl_coro rest
               | Unwind _ rest | Destroying rest => map sl_coro rest
               | _ => map sl_coro (s_coros s)
               end).

Section History.
  Variables (cs : nat -> config) (z : Z) (ls : list (nat * label)).

  (** The states of the executions when [p] steps have been made. *)
  Definition world_at (p : nat) (w : world) : Prop := run_world cs (world_init z) (firstn p ls) = Some w.
  (** Step number [p] is made by execution [i], [e] happens in it. *)
  Definition happens (p i : nat) (e : event) : Prop :=
    exists l w w' new, nth_error ls p = Some (i, l) /\ world_at p w /\ world_at (S p) w' /\
      trace (w' i) = trace (w i) ++ new /\ In e new.

  (** The call of std::async synchronizes with the start of the job, its end with the get(),
      after which on_run_log is called, or the destructor of the future. *)
  Definition world_sync (p q : nat) : Prop :=
    exists i n,
      (happens p i (ELaunch n) /\ nth_error ls q = Some (i, LBegin n)) \/
      (exists o t, nth_error ls p = Some (i, LEnd n o) /\ happens q i (ERunLog n t)) \/
      (exists o l w w', nth_error ls p = Some (i, LEnd n o) /\ nth_error ls q = Some (i, l) /\
         world_at q w /\ world_at (S q) w' /\ In n (frames (w i)) /\ ~ In n (frames (w' i))).

  Variable home : nat -> world_thread.
  Definition world_precedes (p q : nat) : Prop :=
    p < q /\
    ((exists a b t, nth_error ls p = Some a /\ nth_error ls q = Some b /\
        step_thread cs home a = Some t /\ step_thread cs home b = Some t) \/ world_sync p q).
  Definition world_before : nat -> nat -> Prop := clos_trans nat world_precedes.

  (** Two conflicting accesses in different steps, not ordered.  [touches i n]: what the job
      of node [n] of execution [i], or a visitor when called about it, may use.  The start and
      the end of an execution may use anything, its destructor nothing. *)
  Variable loc : Type.
  Variable touches : nat -> nid -> loc -> access -> Prop.
  Definition world_race (p q : nat) : Prop :=
    exists i j e e' l k k', happens p i e /\ happens q j e' /\ e <> EDestroyed /\ e' <> EDestroyed /\
      may_access loc (touches i) e l k /\ may_access loc (touches j) e' l k' /\ conflict k k' /\
      p <> q /\ ~ world_before p q /\ ~ world_before q p.
End History.
