(** Vocabulary for task sets, used in the statements of the properties. *)
From Coq Require Import String Ascii Sorted Relations Permutation.
From Verif Require Import Model.Common Model.Records Model.Jobs Model.TaskSet Model.Dag
     Model.Sched Model.Exec Model.ExecSet.
Open Scope string_scope.
Open Scope nat_scope.
Open Scope list_scope.

(** The task set holds task [t] under the path [p] (the key of the task, preceded by the
    keys of the subsets it is in, outermost first). *)
Inductive holds : task_set -> list string -> tid -> Prop :=
| holds_here tasks sets name t :
    In (name, t) tasks -> holds (TaskSet tasks sets) [name] t
| holds_below tasks sets name s p t :
    In (name, s) sets -> holds s p t -> holds (TaskSet tasks sets) (name :: p) t.

(** The name documented for a path: //z/y for task y in subset z. *)
Fixpoint slashed (p : list string) : string :=
  match p with
  | [] => ""
  | c :: r => "/" ++ c ++ slashed r
  end.
Definition full_name (p : list string) : string := "/" ++ slashed p.

(** No component contains a slash. *)
Fixpoint has_slash (s : string) : bool :=
  match s with
  | EmptyString => false
  | String a r => Ascii.eqb a "/" || has_slash r
  end.
Definition plain (p : list string) : Prop := forall c, In c p -> has_slash c = false.

(** Keys in ascending order, as in a std::map. *)
Definition key_lt (a b : string) : Prop := String.compare a b = Lt.
Inductive ordered : task_set -> Prop :=
| ordered_set tasks sets :
    StronglySorted key_lt (map fst tasks) -> StronglySorted key_lt (map fst sets) ->
    (forall name s, In (name, s) sets -> ordered s) ->
    ordered (TaskSet tasks sets).

(** Tasks of a set come before those of its subsets, each in key order. *)
Inductive comes_before : list string -> list string -> Prop :=
| cb_tasks a b : key_lt a b -> comes_before [a] [b]
| cb_task_sub a b c q : comes_before [a] (b :: c :: q)
| cb_subs a b c p d q : key_lt a b -> comes_before (a :: c :: p) (b :: d :: q)
| cb_same a c p d q : comes_before (c :: p) (d :: q) -> comes_before (a :: c :: p) (a :: d :: q).

(** The task objects are stored in the set, so no two places hold the same object. *)
Definition owned (ts : task_set) : Prop :=
  forall p q t, holds ts p t -> holds ts q t -> p = q.

Definition substring (pat s : string) : Prop := exists a b, s = (a ++ pat ++ b)%string.

(** [a] lists [b] in depends_on. *)
Definition depends_on (st : store) (a b : tid) : Prop := In b (t_depends_on (st_get st a)).

(** The tasks an execution with this filter is about: those whose full name contains the
    filter and all they transitively depend on. *)
Definition selected (st : store) (ts : task_set) (filt : string) (t : tid) : Prop :=
  exists p r, holds ts p r /\ substring filt (full_name p) /\
              clos_refl_trans tid (depends_on st) r t.

(** The edges declared by task [t], among the tasks [sel]; node of task x at [addr x]. *)
Definition declared_edges (st : store) (addr : tid -> nid) (sel : list tid) (t : tid) : list edge :=
  let x := st_get st t in
  flat_map (fun d => [Edge (addr t) (addr d) AFTER; Edge (addr t) (addr d) REQUIRES;
                      Edge (addr t) (addr d) INVALIDATED_BY]) (t_depends_on x) ++
  map (fun d => Edge (addr t) (addr d) AFTER) (filter (fun d => mem d sel) (t_run_after x)) ++
  map (fun d => Edge (addr t) (addr d) INVALIDATED_BY)
      (filter (fun d => mem d sel) (t_invalidated_by x)).

(** [o] enumerates a hash map: some order of its entries. *)
Definition some_order {A} (o : list A -> list A) : Prop := forall l, Permutation (o l) l.

(** The allocator gives each of the tasks a node of its own, not yet in [g]. *)
Definition fresh_nodes (g : dag) (addr : tid -> nid) (P : tid -> Prop) : Prop :=
  (forall a b, P a -> P b -> addr a = addr b -> a = b) /\
  (forall a, P a -> ~ In (addr a) (node_ids g)).

(** No reference to a destroyed task is followed. *)
Definition live (st : store) (P : tid -> Prop) : Prop := forall t, P t -> In t (st_dom st).

(** [a] is to run after [b], as far as the tasks say. *)
Definition task_after (st : store) (a b : tid) : Prop :=
  In b (t_depends_on (st_get st a)) \/ In b (t_run_after (st_get st a)).
Definition task_cyclic (st : store) : Prop := exists t, clos_trans tid (task_after st) t t.

(** [c] is an execution of the tasks of [ts] selected by [filt]: what exec returns, for
    some iteration orders of the hash maps it uses, node of task t at address [addr t]. *)
Definition execution_of (st : store) (ts : task_set) (filt : string)
           (iv : tid -> inval_answer) (addr : tid -> nid) (c : config) : Prop :=
  exists threads ord1 ord2,
    some_order ord1 /\ some_order ord2 /\ ordered ts /\ owned ts /\
    fresh_nodes dag0 addr (selected st ts filt) /\
    exec_set st ts threads filt iv addr ord1 ord2 = Built c.

(** [a] is to run after [b] and both are selected. *)
Definition selected_after (st : store) (ts : task_set) (filt : string) (a b : tid) : Prop :=
  selected st ts filt a /\ selected st ts filt b /\ task_after st a b.

(** [a] depends on [b], or lists it in invalidated_by, and both are selected. *)
Definition selected_inval (st : store) (ts : task_set) (filt : string) (a b : tid) : Prop :=
  selected st ts filt a /\ selected st ts filt b /\
  (In b (t_depends_on (st_get st a)) \/ In b (t_invalidated_by (st_get st a))).

(** The task's own job says it is invalidated, or that of one it transitively depends on or
    is invalidated by. *)
Definition task_invalidated (st : store) (ts : task_set) (filt : string)
           (iv : tid -> inval_answer) (t : tid) : Prop :=
  exists u log, clos_refl_trans tid (selected_inval st ts filt) t u /\ iv u = IvRet true log.
