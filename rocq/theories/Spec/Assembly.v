(** Vocabulary for programs that put task sets together (C95). *)
From Coq Require Import String.
From Verif Require Import Model.Common Model.TaskSet Model.Dag Model.Assemble Spec.Tasks.
Open Scope string_scope.
Open Scope nat_scope.
Open Scope list_scope.

(** Operations that destroy no task, and refer to existing ones only in depends_on. *)
Definition builds (a : assembly) (o : assemble_op) : Prop :=
  match o with
  | APut _ _ _ _ x | ANew _ x | AChange _ x =>
      forall u, In u (t_depends_on x) -> In u (st_dom (a_store a))
  | AMove v p _ _ => forall r t, ~ holds (a_sets a v) (p ++ r) t
  | AHelp _ _ _ _ => True
  | AErase _ _ _ | AEraseSet _ _ _ | ADrop _ => False
  end.
Inductive only_builds : assembly -> list assemble_op -> assembly -> Prop :=
| ob_done a : only_builds a [] a
| ob_op a o a' os a'' :
    builds a o -> assemble a o = Some a' -> only_builds a' os a'' -> only_builds a (o :: os) a''.

(** The place of the task that was at path [p] of variable [v]: moved along with the set. *)
Definition moved (o : assemble_op) (v : nat) (p : list string) (w : nat) (q : list string) : Prop :=
  match o with
  | AMove v1 p1 w1 q1 =>
      (exists r, r <> [] /\ v = w1 /\ p = q1 ++ r /\ w = v1 /\ q = p1 ++ r) \/
      ((v <> w1 \/ forall r, r <> [] -> p <> q1 ++ r) /\ w = v /\ q = p)
  | _ => w = v /\ q = p
  end.

(** Which tasks are where after an operation, and which task objects exist. *)
Definition below (p q : list string) : Prop := exists r, r <> [] /\ q = p ++ r.
Definition placed (a : assembly) (o : assemble_op) (w : nat) (q : list string) (u : tid) : Prop :=
  match o with
  | APut v p name t _ =>
      holds (a_sets a w) q u \/ (w = v /\ q = p ++ [name] /\ u = t /\ forall z, ~ holds (a_sets a v) q z)
  | AMove v p v' p' =>
      (w = v /\ exists r, r <> [] /\ q = p ++ r /\ holds (a_sets a v') (p' ++ r) u) \/
      (holds (a_sets a w) q u /\ ~ (w = v /\ below p q) /\ ~ (w = v' /\ below p' q))
  | AErase v p name => holds (a_sets a w) q u /\ ~ (w = v /\ q = p ++ [name])
  | AEraseSet v p name => holds (a_sets a w) q u /\ ~ (w = v /\ below (p ++ [name]) q)
  | ANew _ _ | ADrop _ | AChange _ _ | AHelp _ _ _ _ => holds (a_sets a w) q u
  end.
Definition alive (a : assembly) (o : assemble_op) (u : tid) : Prop :=
  let was := In u (st_dom (a_store a)) in
  match o with
  | APut v p name t _ => was \/ (u = t /\ forall z, ~ holds (a_sets a v) (p ++ [name]) z)
  | AMove v p _ _ => was /\ ~ exists q, below p q /\ holds (a_sets a v) q u
  | AErase v p name => was /\ ~ holds (a_sets a v) (p ++ [name]) u
  | AEraseSet v p name => was /\ ~ exists q, below (p ++ [name]) q /\ holds (a_sets a v) q u
  | ANew t _ => was \/ u = t
  | ADrop t => was /\ u <> t
  | AChange _ _ | AHelp _ _ _ _ => was
  end.
