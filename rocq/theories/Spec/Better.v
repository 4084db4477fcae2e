(** What becomes better when jobs are repaired. *)
From Verif Require Import Model.Records.

(** From status [a] to status [b]: nothing that was good becomes bad, what failed may
    succeed, and what was blocked may have any status. *)
Definition improves (a b : run_status) : Prop :=
  a = b \/ (a = FAIL /\ b = OK) \/ a = DEPF.
