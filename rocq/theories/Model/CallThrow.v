(** for_each_task and the bulk helpers (include/joque/task.hpp, src/task.cpp) when memory runs
    out, or the function given to for_each_task throws. *)
From Coq Require Import String.
From Verif Require Import Model.Common Model.TaskSet.
Open Scope string_scope.
Open Scope nat_scope.
Open Scope list_scope.

(** A call returned, or threw an exception; with the state of the program then. *)
Inductive ended (A : Type) := Returned (a : A) | Threw (a : A).
Arguments Returned {A}. Arguments Threw {A}.
Definition and_then {A} (x : ended A) (f : A -> ended A) : ended A :=
  match x with Returned a => f a | Threw a => Threw a end.

Section Visit.
  Variable A : Type.
  (** Making a string; [None]: std::bad_alloc.  One step for both allocations of
      [( prefix + "/" ).append( name )]. *)
  Variable alloc : A -> option A.
  Variable f : string -> tid -> A -> ended A.
  Definition made_name (a : A) : ended A := match alloc a with Some a' => Returned a' | None => Threw a end.

  (** task.hpp:96-97 *)
  Fixpoint x_tasks (prefix : string) (l : list (string * tid)) (a : A) : ended A :=
    match l with
    | [] => Returned a
    | (name, t) :: l' =>
        and_then (made_name a) (fun a =>
        and_then (f (prefix ++ "/" ++ name)%string t a) (x_tasks prefix l'))
    end.
  (** task.hpp:93-100 for_each_task_impl *)
  Fixpoint x_impl (ts : task_set) (prefix : string) (a : A) : ended A :=
    match ts with
    | TaskSet tasks sets =>
        and_then (x_tasks prefix tasks a)
          ((fix go (l : list (string * task_set)) (a : A) : ended A :=
              match l with
              | [] => Returned a
              | (name, s) :: l' =>
                  and_then (made_name a) (fun a =>
                  and_then (x_impl s (prefix ++ "/" ++ name)%string a) (go l'))
              end) sets)
    end.
  (** task.hpp:102-107 for_each_task: the argument "/" becomes a string, too. *)
  Definition x_for_each_task (ts : task_set) (a : A) : ended A :=
    and_then (made_name a) (x_impl ts "/").
End Visit.
Arguments x_tasks {A}. Arguments x_impl {A}. Arguments x_for_each_task {A}. Arguments made_name {A}.

(** For the helpers: the number of times memory was asked for so far, and the tasks.
    [fails i]: the i-th time, there is none.  (A string that needs no memory, or a vector
    that has room, does not fail.) *)
Definition x_alloc (fails : nat -> bool) (a : nat * store) : option (nat * store) :=
  if fails (fst a) then None else Some (S (fst a), snd a).
(** std::vector::emplace_back has no effect if it throws. *)
Definition x_push (fails : nat -> bool) (t : tid) (add : task -> task) (a : nat * store) : ended (nat * store) :=
  if fails (fst a) then Threw a
  else Returned (S (fst a), store_set (snd a) t (add (st_get (snd a) t))).

(** task.cpp:7-13 *)
Definition x_for_each_add_dep (fails : nat -> bool) (st : store) (ts : task_set) (dep : tid) : ended (nat * store) :=
  x_for_each_task (x_alloc fails)
    (fun _ x a => if x =? dep then Returned a else x_push fails x (add_depends_on dep) a) ts (0, st).
(** task.cpp:15-21 *)
Definition x_add_dep_to_each (fails : nat -> bool) (st : store) (t : tid) (ts : task_set) : ended (nat * store) :=
  x_for_each_task (x_alloc fails)
    (fun _ x a => if t =? x then Returned a else x_push fails t (add_depends_on x) a) ts (0, st).
(** task.cpp:23-29 *)
Definition x_run_each_after (fails : nat -> bool) (st : store) (ts : task_set) (t : tid) : ended (nat * store) :=
  x_for_each_task (x_alloc fails)
    (fun _ x a => if x =? t then Returned a else x_push fails x (add_run_after t) a) ts (0, st).
(** task.cpp:31-37 *)
Definition x_run_after_all_of (fails : nat -> bool) (st : store) (t : tid) (ts : task_set) : ended (nat * store) :=
  x_for_each_task (x_alloc fails)
    (fun _ x a => if t =? x then Returned a else x_push fails t (add_run_after x) a) ts (0, st).
(** task.cpp:39-45 *)
Definition x_invalidated_by_all_of (fails : nat -> bool) (st : store) (t : tid) (ts : task_set) : ended (nat * store) :=
  x_for_each_task (x_alloc fails)
    (fun _ x a => if t =? x then Returned a else x_push fails t (add_invalidated_by x) a) ts (0, st).
