(** Vocabulary for the times of run(): [ts] lists when each tick begins and returns. *)
From Coq Require Import ZArith List.
Import ListNotations.
Open Scope Z_scope.

(** The sleeps are exact: each tick begins when the one before has returned and the time it is
    scheduled for, a period later each time, has come; not later.  [now] and [next] are the
    present and what the first tick is scheduled for. *)
Fixpoint on_time (period now next : Z) (ts : list (Z * Z)) : Prop :=
  match ts with
  | [] => True
  | (b, e) :: r => b = Z.max now next /\ on_time period e (next + period) r
  end.

(** How many ticks begin before [t]. *)
Definition begun_before (t : Z) (ts : list (Z * Z)) : nat := length (filter (fun x => fst x <? t) ts).

(** No tick takes longer than [d]. *)
Definition ticks_within (d : Z) (ts : list (Z * Z)) : Prop := forall b e, In (b, e) ts -> e - b <= d.
