(** Vocabulary for what happens within one call of tick. *)
From Verif Require Import Model.Common Model.Sched Model.Exec.
Open Scope list_scope.

(** [tick] is called in [s], and [s'] is a state in the middle of this call or after it, but
    before the next call of [tick]. *)
Definition within_tick (c : config) (s s' : state) : Prop :=
  exists ls, run_labels c s (LTick :: ls) = Some s' /\ ~ In LTick ls.
