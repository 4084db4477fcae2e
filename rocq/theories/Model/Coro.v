(** include/joque/exec_coro.hpp, src/exec_coro.cpp: exec_coro objects as owners of
    coroutine frames *)
From Verif Require Import Model.Common Model.Heap.
Open Scope nat_scope.
Open Scope list_scope.

(** [ob]: the exec_coro objects that exist, each with its member h_ ([None]: null),
    exec_coro.hpp:50.  [fr]: the frames that exist; a frame stands for one execution, so
    its number is never used again.  [freed]: the frames destroyed, latest first. *)
Record cmem := CMem { ob : nat -> option (option nat); fr : nat -> bool; freed : list nat }.
Definition cmem0 : cmem := CMem (fun _ => None) (fun _ => false) [].

Inductive cop :=
| CStart (o x : nat)          (* exec() returns object o for a new execution x *)
| CMoveNew (o o' : nat)       (* exec_coro o{ std::move( o' ) } *)
| CMoveAssign (o o' : nat)    (* o = std::move( o' ) *)
| CDestroy (o : nat).         (* the end of o's lifetime *)

(** exec_coro.cpp:14-18, 42-45 get_return_object and the constructor *)
Definition c_start (m : cmem) (o x : nat) : res cmem :=
  match ob m o, fr m x with
  | None, false => Ok (CMem (put (ob m) o (Some (Some x))) (fun y => (y =? x) || fr m y) (freed m))
  | _, _ => Undef
  end.

(** std::swap( h_, other.h_ ) *)
Definition swap_h (m : cmem) (o o' : nat) : res cmem :=
  match ob m o, ob m o' with
  | Some h, Some h' => Ok (CMem (put (put (ob m) o (Some h')) o' (Some h)) (fr m) (freed m))
  | _, _ => Undef
  end.

(** exec_coro.cpp:47-50 exec_coro( exec_coro&& ): h_ starts null *)
Definition c_move_new (m : cmem) (o o' : nat) : res cmem :=
  match ob m o with
  | None => swap_h (CMem (put (ob m) o (Some None)) (fr m) (freed m)) o o'
  | Some _ => Undef
  end.

(** exec_coro.cpp:52-56 operator=( exec_coro&& ) *)
Definition c_move_assign (m : cmem) (o o' : nat) : res cmem := swap_h m o o'.

(** exec_coro.cpp:91-95 ~exec_coro: destroy() of a frame that does not exist is undefined *)
Definition c_destroy (m : cmem) (o : nat) : res cmem :=
  match ob m o with
  | None => Undef
  | Some None => Ok (CMem (put (ob m) o None) (fr m) (freed m))
  | Some (Some x) =>
      if fr m x
      then Ok (CMem (put (ob m) o None) (fun y => negb (y =? x) && fr m y) (x :: freed m))
      else Undef
  end.

Definition run_cop (m : cmem) (op : cop) : res cmem :=
  match op with
  | CStart o x => c_start m o x
  | CMoveNew o o' => c_move_new m o o'
  | CMoveAssign o o' => c_move_assign m o o'
  | CDestroy o => c_destroy m o
  end.
Fixpoint run_cops (m : cmem) (ops : list cop) : res cmem :=
  match ops with
  | [] => Ok m
  | op :: r => bind (run_cop m op) (fun m1 => run_cops m1 r)
  end.

(** exec_coro.cpp:58-61, 63-71, 73-77: which execution done(), result() and tick() act on.
    result() and tick() check for null, done() does not. *)
Definition c_done (m : cmem) (o : nat) : res nat :=
  match ob m o with Some (Some x) => if fr m x then Ok x else Undef | _ => Undef end.
Definition c_result (m : cmem) (o : nat) : res (option nat) :=
  match ob m o with
  | Some (Some x) => if fr m x then Ok (Some x) else Undef
  | Some None => Ok None
  | None => Undef
  end.
Definition c_tick (m : cmem) (o : nat) : res (option nat) := c_result m o.
