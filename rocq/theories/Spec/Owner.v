(** Programs that create, move and destroy exec_coro objects, seen from outside: which
    objects exist and which executions were started. *)
From Verif Require Import Model.Common Model.Coro.
Open Scope nat_scope.
Open Scope list_scope.

Definition drop (o : nat) (os : list nat) : list nat := filter (fun x => negb (x =? o)) os.

(** The objects that exist after [ops], if those before are [os]. *)
Definition objects_step (os : list nat) (op : cop) : list nat :=
  match op with
  | CStart o _ | CMoveNew o _ => o :: os
  | CMoveAssign _ _ => os
  | CDestroy o => drop o os
  end.
Definition objects (ops : list cop) : list nat := fold_left objects_step ops [].

(** The executions started by [ops]. *)
Definition started (ops : list cop) : list nat :=
  flat_map (fun op => match op with CStart _ x => [x] | _ => [] end) ops.

(** A program the language allows: an object is created where none exists, and only
    existing objects are moved from, assigned to or destroyed; every execution is new. *)
Definition allowed_step (os : list nat) (op : cop) : Prop :=
  match op with
  | CStart o _ => ~ In o os
  | CMoveNew o o' => ~ In o os /\ In o' os
  | CMoveAssign o o' => In o os /\ In o' os
  | CDestroy o => In o os
  end.
Fixpoint allowed_from (os : list nat) (ops : list cop) : Prop :=
  match ops with
  | [] => True
  | op :: r => allowed_step os op /\ allowed_from (objects_step os op) r
  end.
Definition allowed (ops : list cop) : Prop := allowed_from [] ops /\ NoDup (started ops).

Definition owns (m : cmem) (o x : nat) : Prop := ob m o = Some (Some x).
