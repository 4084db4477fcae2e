(** insert_set with the hash map [tmp] as it is: it grows while the loop runs over it.
    [Dag.insert_set] iterates over the keys the map has before the loop. *)
From Coq Require Import String.
From Verif Require Import Model.Common Model.Records Model.Jobs Model.TaskSet Model.Dag Model.Sched Model.Exec.
Open Scope string_scope.
Open Scope nat_scope.
Open Scope list_scope.

(** State of dag.cpp:15-29: the graph, the keys of [index], the elements of [tmp] in the
    order in which they were inserted. *)
Record hstate := HState { h_dag : dag; h_index : list tid; h_tmp : list (string * tid) }.

(** dag.cpp:61-64: [tmp.emplace( &t, name )] for each task; a key that is there keeps its name. *)
Definition filled (l : list (string * tid)) : list (string * tid) :=
  fold_left (fun tmp e => match tmp_get tmp (snd e) with Some _ => tmp | None => tmp ++ [e] end) l [].

(** dag.cpp:21-28; [rec] is [dfs]. *)
Fixpoint dfs_deps_h (rec : tid -> hstate -> build hstate) (addr : tid -> nid) (t : tid)
         (ds : list tid) (h : hstate) : build hstate :=
  match ds with
  | [] => Built h
  | d :: ds' =>
      match rec d h with
      | Built h' =>
          let g := add_edge (h_dag h') (addr t) (addr d) AFTER in
          let g := add_edge g (addr t) (addr d) REQUIRES in
          let g := add_edge g (addr t) (addr d) INVALIDATED_BY in
          dfs_deps_h rec addr t ds' (HState g (h_index h') (h_tmp h'))
      | r => r
      end
  end.

(** dag.cpp:15-29 dfs.  [tmp[&t]] inserts an empty name if the map has no key [&t]. *)
Fixpoint dfs_h (fuel : nat) (st : store) (addr : tid -> nid) (t : tid) (h : hstate) : build hstate :=
  match fuel with
  | O => BuildFuel
  | S f =>
      if mem t (h_index h) then Built h
      else if negb (mem t (st_dom st)) then BuildUB
      else
        match tmp_get (h_tmp h) t with
        | Some name =>
            dfs_deps_h (dfs_h f st addr) addr t (t_depends_on (st_get st t))
                       (HState (emplace (h_dag h) (addr t) name t) (t :: h_index h) (h_tmp h))
        | None =>
            dfs_deps_h (dfs_h f st addr) addr t (t_depends_on (st_get st t))
                       (HState (emplace (h_dag h) (addr t) EmptyString t) (t :: h_index h)
                               (h_tmp h ++ [(EmptyString, t)]))
        end
  end.

(** dag.cpp:67-71, the loop over [tmp].  [todo] are the elements from the iterator on, in the
    iteration order of the map.  [place todo x] is [todo] after the insertion of [x]: the map
    puts it behind the iterator, or somewhere ahead of it.  [cap] is the number of elements
    the map can hold without a rehash (bucket_count() * max_load_factor() at the start of the
    loop).  An insertion beyond it invalidates the iterator; to increment it, at the end of
    the pass, is undefined behaviour.  Explicit fuel. *)
Fixpoint loop_h (fuel k cap : nat) (place : list (string * tid) -> string * tid -> list (string * tid))
         (st : store) (addr : tid -> nid) (filt : string) (todo : list (string * tid)) (h : hstate)
  : build hstate :=
  match todo with
  | [] => Built h
  | (name, t) :: r =>
      match fuel with
      | O => BuildFuel
      | S f =>
          if contains filt name then
            match dfs_h k st addr t h with
            | Built h' =>
                if cap <? List.length (h_tmp h') then BuildUB
                else loop_h f k cap place st addr filt
                            (fold_left place (skipn (List.length (h_tmp h)) (h_tmp h')) r) h'
            | e => e
            end
          else loop_h f k cap place st addr filt r h
      end
  end.

(** dag.cpp:58-85 insert_set.  The loop over [index] (lines 74-84) inserts nothing: it looks
    up a key only if it is there. *)
Definition insert_set_h (cap : nat) (place : list (string * tid) -> string * tid -> list (string * tid))
           (g0 : dag) (st : store) (ts : task_set) (filt : string) (addr : tid -> nid)
           (ord1 : list (string * tid) -> list (string * tid))
           (ord2 : list tid -> list tid) : build dag :=
  let tmp := filled (for_each_task ts) in
  match loop_h (List.length tmp + List.length (st_dom st)) (S (List.length (st_dom st))) cap place st addr filt
               (ord1 tmp) (HState g0 [] tmp) with
  | Built h =>
      Built (fold_left
          (fun g t =>
             let g := add_opt_edges (h_index h) addr t AFTER (t_run_after (st_get st t)) g in
             add_opt_edges (h_index h) addr t INVALIDATED_BY (t_invalidated_by (st_get st t)) g)
          (ord2 (h_index h)) (h_dag h))
  | BuildUB => BuildUB
  | BuildFuel => BuildFuel
  end.

(** exec.cpp:284-293, as [ExecSet.exec_set]. *)
Definition exec_set_h (cap : nat) (place : list (string * tid) -> string * tid -> list (string * tid))
           (st : store) (ts : task_set) (threads : nat) (filt : string)
           (iv : tid -> inval_answer) (addr : tid -> nid)
           (ord1 : list (string * tid) -> list (string * tid))
           (ord2 : list tid -> list tid) : build config :=
  match insert_set_h cap place dag0 st ts filt addr ord1 ord2 with
  | Built g => Built (Config g threads (st_get st) (fun n => iv (node_task g n)))
  | BuildUB => BuildUB
  | BuildFuel => BuildFuel
  end.
