(** include/joque/task.hpp, src/task.cpp *)
From Coq Require Import String.
From Verif Require Import Model.Common.
Open Scope string_scope.
Open Scope nat_scope.
Open Scope list_scope.

(** task.hpp:27-51 struct task.  References are addresses.  Of the job only its
    presence matters here ([job_ptr] may be null); its answers are part of the
    execution's environment. *)
Record task := Task {
  t_has_job        : bool;
  t_depends_on     : list tid;
  t_run_after      : list tid;
  t_invalidated_by : list tid;
  t_resources      : list rid;
  t_hidden         : bool }.

(** Memory holding the task objects.  [st_dom] lists the live ones (inside or
    outside of any task set). *)
Record store := Store { st_dom : list tid; st_get : tid -> task }.
Definition store_set (st : store) (t : tid) (x : task) : store :=
  Store (st_dom st) (upd (st_get st) t x).

(** task.hpp:60-66 struct task_set: two std::maps, as key/value lists in key
    order. *)
Inductive task_set := TaskSet (tasks : list (string * tid)) (sets : list (string * task_set)).

(** task.hpp:93-100 for_each_task_impl: the calls of [f], in order. *)
Fixpoint for_each_task_impl (ts : task_set) (prefix : string) : list (string * tid) :=
  match ts with
  | TaskSet tasks sets =>
      map (fun nt => (prefix ++ "/" ++ fst nt, snd nt))%string tasks ++
      (fix go (l : list (string * task_set)) : list (string * tid) :=
         match l with
         | [] => []
         | (name, s) :: l' => for_each_task_impl s (prefix ++ "/" ++ name)%string ++ go l'
         end) sets
  end.

(** task.hpp:102-107 for_each_task *)
Definition for_each_task (ts : task_set) : list (string * tid) :=
  for_each_task_impl ts "/".

(** [v.emplace_back(x)] on the reference vectors of one task *)
Definition add_depends_on (d : tid) (x : task) : task :=
  Task (t_has_job x) (t_depends_on x ++ [d]) (t_run_after x) (t_invalidated_by x)
       (t_resources x) (t_hidden x).
Definition add_run_after (d : tid) (x : task) : task :=
  Task (t_has_job x) (t_depends_on x) (t_run_after x ++ [d]) (t_invalidated_by x)
       (t_resources x) (t_hidden x).
Definition add_invalidated_by (d : tid) (x : task) : task :=
  Task (t_has_job x) (t_depends_on x) (t_run_after x) (t_invalidated_by x ++ [d])
       (t_resources x) (t_hidden x).

(** task.cpp:7-13 *)
Definition for_each_add_dep (st : store) (ts : task_set) (dep : tid) : store :=
  fold_left (fun st nt =>
               if snd nt =? dep then st
               else store_set st (snd nt) (add_depends_on dep (st_get st (snd nt))))
            (for_each_task ts) st.

(** task.cpp:15-21 *)
Definition add_dep_to_each (st : store) (t : tid) (ts : task_set) : store :=
  fold_left (fun st nt =>
               if t =? snd nt then st
               else store_set st t (add_depends_on (snd nt) (st_get st t)))
            (for_each_task ts) st.

(** task.cpp:23-29 *)
Definition run_each_after (st : store) (ts : task_set) (t : tid) : store :=
  fold_left (fun st nt =>
               if snd nt =? t then st
               else store_set st (snd nt) (add_run_after t (st_get st (snd nt))))
            (for_each_task ts) st.

(** task.cpp:31-37 *)
Definition run_after_all_of (st : store) (t : tid) (ts : task_set) : store :=
  fold_left (fun st nt =>
               if t =? snd nt then st
               else store_set st t (add_run_after (snd nt) (st_get st t)))
            (for_each_task ts) st.

(** task.cpp:39-45 *)
Definition invalidated_by_all_of (st : store) (t : tid) (ts : task_set) : store :=
  fold_left (fun st nt =>
               if t =? snd nt then st
               else store_set st t (add_invalidated_by (snd nt) (st_get st t)))
            (for_each_task ts) st.
