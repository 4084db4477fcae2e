(** Vocabulary for executions whose tasks change meanwhile (C98). *)
From Verif Require Import Model.Common Model.Records Model.Jobs Model.TaskSet Model.Dag
     Model.Sched Model.Exec Model.Changes Spec.Graph Spec.Trace.
Open Scope nat_scope.
Open Scope list_scope.

(** The steps of the execution alone. *)
Definition steps_of (acts : list happening) : list label :=
  flat_map (fun a => match a with Do l => [l] | _ => [] end) acts.

(** A change that concerns no task of the graph, or only tasks that are recorded already, or
    only the relations and the hidden flag, or is made when the execution is over; and no
    answer is changed before the first tick. *)
Definition harmless (c : config) (s : state) (a : happening) : Prop :=
  match a with
  | Do _ => True
  | Assign t y =>
      (forall x, In x (d_nodes (c_dag c)) -> n_task x = t -> recorded (trace s) (n_id x)) \/
      (t_has_job y = t_has_job (c_task c t) /\ t_resources y = t_resources (c_task c t)) \/
      done s = true \/ In EDestroyed (trace s)
  | Answer n x => s_pc s <> Created
  end.
Definition all_harmless (c : config) (z : Z) (acts : list happening) : Prop :=
  forall p a q c' s, acts = p ++ a :: q -> run_changing c (init z) p = Some (c', s) -> harmless c' s a.
