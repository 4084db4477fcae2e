(** The times in a record of an execution (C112). *)
From Verif Require Import Model.Common Model.Records Model.TaskSet Model.Dag Model.Sched Model.Exec
     Spec.Graph Spec.Trace.
Open Scope Z_scope.
Open Scope list_scope.

(** The job of the task was executed. *)
Definition was_executed (r : run_record) : Prop := r_status r = OK \/ r_status r = FAIL.
(** What the report calls the duration of a run, and the sum of the durations. *)
Definition duration (r : run_record) : Z := r_end r - r_start r.
Definition busy_time (rs : list run_record) : Z := fold_right (fun r k => duration r + k) 0 rs.
(** The run is going on at time [t]. *)
Definition going_on (t : Z) (r : run_record) : bool := (r_start r <=? t) && (t <? r_end r).
(** All runs are within [lo] and [hi]. *)
Definition within_times (lo hi : Z) (rs : list run_record) : Prop :=
  forall r, In r rs -> lo <= r_start r /\ r_end r <= hi.
(** Each run is related by [after] to the one before it in the list. *)
Fixpoint each_after (after : run_record -> run_record -> Prop) (rs : list run_record) : Prop :=
  match rs with
  | a :: ((b :: _) as rest) => after b a /\ each_after after rest
  | _ => True
  end.
