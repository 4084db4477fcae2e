(** Jobs that execute task sets themselves (C97). *)
From Verif Require Import Model.Common Model.Records Model.Jobs Model.TaskSet Model.Dag
     Model.Sched Model.Exec Model.World Spec.Graph Spec.Trace Spec.World Spec.Races Spec.WorldRaces.
Open Scope nat_scope.
Open Scope list_scope.

Section Nested.
  Variables (cs : nat -> config) (owner : nat -> option (nat * nid)).

  (** [owner j = Some (i, n)]: execution [j] is made, ticked and destroyed by the job of node
      [n] of execution [i], on the thread of that job.  The other ones belong to the client's thread. *)
  Definition homes (home : nat -> world_thread) : Prop :=
    forall j, match owner j with
              | None => home j = TheClient
              | Some (i, n) => i < j /\ home j = job_thread cs home i n
              end.

  (** Execution [j] is made by the job, or by a job of an execution that is. *)
  Inductive inside (i : nat) (n : nid) : nat -> Prop :=
  | inside_job j : owner j = Some (i, n) -> inside i n j
  | inside_nested j k m : owner j = Some (k, m) -> inside i n k -> inside i n j.

  (** Such a job does this while it is being called, ... *)
  Definition made_inside (z : Z) (ls : list (nat * label)) : Prop :=
    forall p i l q w, ls = p ++ (i, l) :: q -> run_world cs (world_init z) p = Some w ->
      forall k n, owner i = Some (k, n) -> env_label l = false -> In n (running (trace (w k))).
  (** ... does not return before the execution has finished, failed or been destroyed, ... *)
  Definition waited_for (z : Z) (ls : list (nat * label)) : Prop :=
    forall p i l q w, ls = p ++ (i, l) :: q -> run_world cs (world_init z) p = Some w ->
      forall n o j, owner j = Some (i, n) -> l = LEnd n o -> not_in_progress (w j).
  (** ... and executions that are made at the same place follow one another. *)
  Definition in_turn (z : Z) (ls : list (nat * label)) : Prop :=
    forall p i l q w, ls = p ++ (i, l) :: q -> run_world cs (world_init z) p = Some w ->
      forall j, owner j = owner i -> j <> i -> tick_label (w i) l -> not_in_progress (w j).
  Definition nested (z : Z) (ls : list (nat * label)) : Prop :=
    made_inside z ls /\ waited_for z ls /\ in_turn z ls.

  (** Memory: what is used inside a job is used by the job. *)
  Variable loc : Type.
  Variable touches : nat -> nid -> loc -> access -> Prop.
  Definition enclosed : Prop :=
    forall j i n m l k, owner j = Some (i, n) -> touches j m l k -> touches i n l k.
  Definition uses (j : nat) (e : event) (l : loc) (k : access) : Prop :=
    (exists m, concerns e m /\ touches j m l k) \/
    (free_access e /\ match owner j with None => True | Some (i, n) => touches i n l k end).
  Definition nested_race (home : nat -> world_thread) (z : Z) (ls : list (nat * label)) (p q : nat) : Prop :=
    exists i j e e' l k k', happens cs z ls p i e /\ happens cs z ls q j e' /\ e <> EDestroyed /\ e' <> EDestroyed /\
      uses i e l k /\ uses j e' l k' /\ conflict k k' /\
      p <> q /\ ~ world_before cs z ls home p q /\ ~ world_before cs z ls home q p.
End Nested.
