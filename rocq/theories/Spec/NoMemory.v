(** Running out of memory (C106). *)
From Verif Require Import Model.Common Model.Records Model.Jobs Model.Dag Model.Sched Model.Exec
     Model.Alloc Spec.Trace Spec.Failure.
Open Scope list_scope.

(** [x] can be reached from the creation of the execution at time [z], where in any call of
    tick() memory may run out. *)
Definition xreachable (c : config) (z : Z) (x : xstate) : Prop :=
  exists ls, xrun c (xinit z) ls = Some x.

(** Everything observable that happened, oldest first. *)
Definition xtrace (x : xstate) : list event := trace (x_s x).

(** Every job that was started has ended. *)
Definition jobs_over (tr : list event) : Prop :=
  forall n, In (ELaunch n) tr -> exists o, In (EEnd n o) tr.

(** [tr] begins [full]. *)
Definition begins (tr full : list event) : Prop := exists more, full = tr ++ more.
