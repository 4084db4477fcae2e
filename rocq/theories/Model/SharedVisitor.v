(** One default visitor, such as the global PRINT_VISITOR that is the default argument of
    exec (include/joque/exec.hpp:39-51), given to several executions that are in progress at
    the same time. *)
From Coq Require Import String.
From Verif Require Import Model.Common Model.Records Model.Jobs Model.TaskSet Model.Dag
     Model.Sched Model.Exec Model.World Model.Visitor.
Open Scope nat_scope.
Open Scope list_scope.

(** The events of a step: those the trace has grown by. *)
Definition new_events (s s' : state) : list event := skipn (List.length (s_log s)) (rev (s_log s')).

(** The graph is a parameter of the coroutine frame (exec.cpp:295), so its nodes exist until
    the frame is destroyed (exec_coro.cpp:91-95).  That an execution may be created long after
    the others is expressed by not counting it before its first tick (Model/World.v): its
    nodes may have the addresses of nodes that were deleted. *)
Definition graph_exists (s : state) : bool :=
  match s_pc s with Created | Destroyed => false | _ => true end.

(** What is at an address: a node of execution [i], which is making the call, or of one of
    the others, [is], whose graph exists. *)
Fixpoint look_others (is : list nat) (cs : nat -> config) (w : world) (n : nid) : option vnode :=
  match is with
  | [] => None
  | j :: r =>
      match (if graph_exists (w j) then look_dag (cs j) n else None) with
      | Some x => Some x
      | None => look_others r cs w n
      end
  end.
Definition look_world (is : list nat) (cs : nat -> config) (w : world) (i : nat) (n : nid) : option vnode :=
  match look_dag (cs i) n with Some x => Some x | None => look_others is cs w n end.

(** The visitor during a history of the program: what is printed, with the execution that
    made the call.  Calls of two executions do not overlap: the visitor has no lock
    (print_exec_visitor.cpp:15-19), so they have to be ticked by one thread. *)
Inductive wres := WOk (v : vis) (out : list (nat * item)) | WDangling (n : nid).
Fixpoint watch_world (is : list nat) (cs : nat -> config) (w : world) (v : vis) (ls : list (nat * label)) : wres :=
  match ls with
  | [] => WOk v []
  | (i, l) :: r =>
      match world_step cs w (i, l) with
      | None => WOk v []
      | Some w' =>
          match watch (look_world is cs w' i) (c_task (cs i)) v (new_events (w i) (w' i)) with
          | VDangling n => WDangling n
          | VOk v1 o =>
              match watch_world is cs w' v1 r with
              | WDangling n => WDangling n
              | WOk v2 o' => WOk v2 (map (pair i) o ++ o')
              end
          end
      end
  end.

(** What was printed for execution [i]. *)
Definition printed_for (i : nat) (out : list (nat * item)) : list item :=
  map snd (filter (fun a => fst a =? i) out).
