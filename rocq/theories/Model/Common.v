(** Shared vocabulary of the model.  No proofs here. *)
From Coq Require Export List Arith Bool ZArith NArith.
From Coq Require Import String.
Export ListNotations.
Open Scope nat_scope.
Open Scope list_scope.

(** Addresses of objects (graph nodes, tasks, resources).  The code compares
    objects by address everywhere (std::set<dag_node*>, std::set<const resource*>,
    unordered_map<const task*, ..>), so an object is identified with its address. *)
Definition nid := nat.      (* address of a dag_node *)
Definition tid := nat.      (* address of a task *)
Definition rid := nat.      (* address of a resource *)

(** Membership in a std::set of addresses ([contains]). *)
Definition mem (x : nat) (l : list nat) : bool := existsb (Nat.eqb x) l.

(** std::set::insert: the set is kept as the ascending list of its elements,
    which is its iteration order (std::less on addresses). *)
Fixpoint set_insert (x : nat) (l : list nat) : list nat :=
  match l with
  | [] => [x]
  | y :: r => if x <? y then x :: y :: r
              else if x =? y then y :: r
              else y :: set_insert x r
  end.

(** std::set::erase(key). *)
Definition set_erase (x : nat) (l : list nat) : list nat :=
  filter (fun y => negb (y =? x)) l.

(** Update of one object in memory. *)
Definition upd {A} (f : nat -> A) (n : nat) (v : A) : nat -> A :=
  fun x => if x =? n then v else f x.
