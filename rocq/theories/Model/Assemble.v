(** Programs that put task sets together: include/joque/task.hpp:27-66, std::map. *)
From Coq Require Import String.
From Verif Require Import Model.Common Model.TaskSet Model.Text.
Open Scope string_scope.
Open Scope nat_scope.
Open Scope list_scope.

(** std::map (task.hpp:63, 65): entries in key order.  [m[k] = v], [m.find(k)], [m.erase(k)]. *)
Section Map.
Variable A : Type.
Fixpoint key_put (k : string) (v : A) (l : list (string * A)) : list (string * A) :=
  match l with
  | [] => [(k, v)]
  | (k', v') :: r =>
      match String.compare k k' with
      | Lt => (k, v) :: (k', v') :: r
      | Eq => (k, v) :: r
      | Gt => (k', v') :: key_put k v r
      end
  end.
Fixpoint key_find (k : string) (l : list (string * A)) : option A :=
  match l with
  | [] => None
  | (k', v) :: r => if String.eqb k k' then Some v else key_find k r
  end.
Fixpoint key_erase (k : string) (l : list (string * A)) : list (string * A) :=
  match l with
  | [] => []
  | (k', v) :: r => if String.eqb k k' then r else (k', v) :: key_erase k r
  end.
End Map.
Arguments key_put {A}. Arguments key_find {A}. Arguments key_erase {A}.

Definition set_tasks (s : task_set) : list (string * tid) := match s with TaskSet x _ => x end.
Definition set_sets (s : task_set) : list (string * task_set) := match s with TaskSet _ x => x end.
Definition no_tasks : task_set := TaskSet [] [].

(** [s.sets[p1].sets[p2]...] (task.hpp:65): a subset that does not exist is made, empty. *)
Fixpoint set_at (s : task_set) (p : list string) : task_set :=
  match p with
  | [] => s
  | k :: p' => match key_find k (set_sets s) with Some x => set_at x p' | None => no_tasks end
  end.
(** [s.sets[p1].sets[p2]... = x] *)
Fixpoint set_put (s : task_set) (p : list string) (x : task_set) : task_set :=
  match p with
  | [] => x
  | k :: p' =>
      let sub := match key_find k (set_sets s) with Some y => y | None => no_tasks end in
      TaskSet (set_tasks s) (key_put k (set_put sub p' x) (set_sets s))
  end.

(** The memory of the program: task objects, the variables of type task_set, and which tasks
    are objects of their own ([task t{ .. };]). *)
Record assembly := Assembly { a_store : store; a_sets : nat -> task_set; a_alone : list tid }.
Definition assembly0 (x : task) : assembly := Assembly (Store [] (fun _ => x)) (fun _ => no_tasks) [].

Definition without (l gone : list tid) : list tid := filter (fun t => negb (mem t gone)) l.
Definition destroy (st : store) (gone : list tid) : store := Store (without (st_dom st) gone) (st_get st).
Definition create (st : store) (t : tid) (x : task) : store := Store (t :: st_dom st) (upd (st_get st) t x).

(** The helpers of task.hpp:75-91 *)
Inductive helper := ForEachAddDep | AddDepToEach | RunEachAfter | RunAfterAllOf | InvalidatedByAllOf.
Definition help (h : helper) (st : store) (t : tid) (ts : task_set) : store :=
  match h with
  | ForEachAddDep => for_each_add_dep st ts t
  | AddDepToEach => add_dep_to_each st t ts
  | RunEachAfter => run_each_after st ts t
  | RunAfterAllOf => run_after_all_of st t ts
  | InvalidatedByAllOf => invalidated_by_all_of st t ts
  end.

(** What a program can do.  A task is a non-copyable object (job.hpp:68-69), so sets are
    moved, never copied. *)
Inductive assemble_op :=
| APut (v : nat) (p : list string) (name : string) (t : tid) (x : task)
    (* v.sets[p..].tasks[name] = x; a new element gets the address [t], an existing one
       keeps its address (std::map never moves elements) *)
| AMove (v : nat) (p : list string) (w : nat) (q : list string)
    (* v.sets[p..] = std::move( w.sets[q..] ), v and w different variables: the elements of
       the maps keep their addresses, the source is empty afterwards (as in all
       implementations of std::map), the old elements are destroyed.  This is also
       how a set is returned from a function. *)
| AErase (v : nat) (p : list string) (name : string)      (* v.sets[p..].tasks.erase( name ) *)
| AEraseSet (v : nat) (p : list string) (name : string)   (* v.sets[p..].sets.erase( name ) *)
| ANew (t : tid) (x : task)                               (* task t{ .. }; *)
| ADrop (t : tid)                                         (* end of life of such a task *)
| AChange (t : tid) (x : task)                            (* change through a reference *)
| AHelp (h : helper) (t : tid) (v : nat) (p : list string).

(** [None]: the operation is not possible (no such object, address in use). *)
Definition assemble (a : assembly) (o : assemble_op) : option assembly :=
  let st := a_store a in
  match o with
  | APut v p name t x =>
      let s := set_at (a_sets a v) p in
      match key_find name (set_tasks s) with
      | Some u => Some (Assembly (store_set st u x) (a_sets a) (a_alone a))
      | None =>
          if mem t (st_dom st) then None
          else Some (Assembly (create st t x)
                      (upd (a_sets a) v
                         (set_put (a_sets a v) p (TaskSet (key_put name t (set_tasks s)) (set_sets s))))
                      (a_alone a))
      end
  | AMove v p w q =>
      if v =? w then None
      else
        let old := set_at (a_sets a v) p in
        let new := set_at (a_sets a w) q in
        Some (Assembly (destroy st (map snd (for_each_task old)))
               (upd (upd (a_sets a) w (set_put (a_sets a w) q no_tasks)) v (set_put (a_sets a v) p new))
               (a_alone a))
  | AErase v p name =>
      let s := set_at (a_sets a v) p in
      match key_find name (set_tasks s) with
      | None => Some a
      | Some u => Some (Assembly (destroy st [u])
                         (upd (a_sets a) v
                            (set_put (a_sets a v) p (TaskSet (key_erase name (set_tasks s)) (set_sets s))))
                         (a_alone a))
      end
  | AEraseSet v p name =>
      let s := set_at (a_sets a v) p in
      match key_find name (set_sets s) with
      | None => Some a
      | Some old => Some (Assembly (destroy st (map snd (for_each_task old)))
                           (upd (a_sets a) v
                              (set_put (a_sets a v) p (TaskSet (set_tasks s) (key_erase name (set_sets s)))))
                           (a_alone a))
      end
  | ANew t x =>
      if mem t (st_dom st) then None
      else Some (Assembly (create st t x) (a_sets a) (t :: a_alone a))
  | ADrop t =>
      if mem t (a_alone a)
      then Some (Assembly (destroy st [t]) (a_sets a) (without (a_alone a) [t]))
      else None
  | AChange t x =>
      if mem t (st_dom st) then Some (Assembly (store_set st t x) (a_sets a) (a_alone a)) else None
  | AHelp h t v p =>
      if mem t (st_dom st)
      then Some (Assembly (help h st t (set_at (a_sets a v) p)) (a_sets a) (a_alone a))
      else None
  end.

Fixpoint assemble_all (a : assembly) (os : list assemble_op) : option assembly :=
  match os with
  | [] => Some a
  | o :: r => match assemble a o with Some a' => assemble_all a' r | None => None end
  end.

(** example.cpp:6-19 gen_tasks, into the variable [v]; the tasks get the addresses [addr i].
    The job always sleeps 200 ms and returns 0. *)
Definition sleeping_task : task := Task true [] [] [] [] false.
Definition gen_tasks (v n : nat) (addr : nat -> tid) : list assemble_op :=
  map (fun i => APut v [] ("task_" ++ dec_nat i) (addr i) sleeping_task) (seq 0 n).
(** example.cpp:25-28: ts (variable 0) gets the sets a and b. *)
Definition example_main (n : nat) (aa ab : nat -> tid) : list assemble_op :=
  gen_tasks 1 n aa ++ [AMove 0 ["a"] 1 []] ++ gen_tasks 2 n ab ++ [AMove 0 ["b"] 2 []].

(** README.md, "Example": ts.tasks["A"], ts.tasks["B"] and again ts.tasks["A"].  ([ts["A"]] is
    read as [ts.tasks["A"]], the lambda as one returning a run_result.) *)
Definition readme_main (a b c : tid) : list assemble_op :=
  [ APut 0 [] "A" a (Task true [] [] [] [] true);
    APut 0 [] "B" b (Task true [a] [] [] [] false);
    APut 0 [] "A" c (Task true [b] [] [] [] false) ].
