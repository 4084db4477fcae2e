(** Vocabulary for programs with several executions. *)
From Verif Require Import Model.Common Model.Records Model.Jobs Model.TaskSet Model.Dag
     Model.Sched Model.Exec Model.World Spec.Graph Spec.Trace.
Open Scope nat_scope.
Open Scope list_scope.

(** What happened to execution [i]. *)
Definition labels_of (i : nat) (ls : list (nat * label)) : list label :=
  map snd (filter (fun a => fst a =? i) ls).

(** Not ticked yet, finished, or destroyed. *)
Definition not_in_progress (s : state) : Prop :=
  s_pc s = Created \/ done s = true \/ In EDestroyed (trace s).

(** A call of tick(), also one in which the visitor throws. *)
Definition tick_label (s : state) (l : label) : Prop :=
  l = LTick \/ ((exists k, l = LVisThrow k) /\ tick_running s = false).

(** Only one execution is used at a time: whenever one is ticked, none of the others is in
    progress. *)
Definition one_at_a_time (cs : nat -> config) (z : Z) (ls : list (nat * label)) : Prop :=
  forall p i l q w, ls = p ++ (i, l) :: q -> run_world cs (world_init z) p = Some w ->
    tick_label (w i) l -> forall j, j <> i -> not_in_progress (w j).

(** One client thread: nothing is called while the call of tick() of another execution has
    not returned. *)
Definition one_client (cs : nat -> config) (z : Z) (ls : list (nat * label)) : Prop :=
  forall p i l q w, ls = p ++ (i, l) :: q -> run_world cs (world_init z) p = Some w ->
    env_label l = false -> forall j, j <> i -> tick_running (w j) = false.
