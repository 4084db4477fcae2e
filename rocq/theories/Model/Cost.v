(** The recursive searches of src/exec.cpp and src/dag.cpp once more, with counters: how
    many calls are made and how deep the recursion gets (for the worklist: how many nodes
    it takes up and how many edges it looks at).  The code is that of Model/Sched.v and
    Model/Dag.v line by line; the theorems show that the answers are the same. *)
From Coq Require Import String.
From Verif Require Import Model.Common Model.TaskSet Model.Dag Model.Sched.
Open Scope nat_scope.
Open Scope list_scope.

(** exec.cpp:72-83, as Sched.find_loop *)
Fixpoint find_loop_c (rec : nid -> list nid -> option (option nid * list nid * nat * nat))
         (self : option nid) (es : list nid) (seen : list nid)
  : option (option nid * list nid * nat * nat) :=
  match es with
  | [] => Some (self, seen, 0, 0)
  | m :: es' =>
      match rec m seen with
      | None => None
      | Some (Some r, seen', k, h) => Some (Some r, seen', k, h)
      | Some (None, seen', k, h) =>
          match find_loop_c rec self es' seen' with
          | None => None
          | Some (r, seen'', k', h') => Some (r, seen'', k + k', Nat.max h h')
          end
      end
  end.

(** exec.cpp:62-84, as Sched.find_node *)
Fixpoint find_node_c (fuel : nat) (d : dag) (st : nid -> nstate) (res : nid -> list rid)
         (used : list rid) (n : nid) (seen : list nid) : option (option nid * list nid * nat * nat) :=
  match fuel with
  | O => None
  | S f =>
      if ns_started (st n) || ns_done (st n) || mem n seen then Some (None, seen, 1, 1)
      else
        let es := after_targets d n in
        let self := if negb (all_done st es) || any_resource_used (res n) used
                    then None else Some n in
        match find_loop_c (find_node_c f d st res used) self es (set_insert n seen) with
        | None => None
        | Some (r, seen', k, h) => Some (r, seen', S k, S h)
        end
  end.

(** exec.cpp:86-98, as Sched.find_candidate *)
Fixpoint find_candidate_c (fuel : nat) (d : dag) (st : nid -> nstate) (res : nid -> list rid)
         (used : list rid) (nodes : list nid) (seen : list nid) : option (option nid * nat * nat) :=
  match nodes with
  | [] => Some (None, 0, 0)
  | c :: r =>
      match find_node_c fuel d st res used c seen with
      | None => None
      | Some (Some n, _, k, h) => Some (Some n, k, h)
      | Some (None, seen', k, h) =>
          match find_candidate_c fuel d st res used r seen' with
          | None => None
          | Some (n, k', h') => Some (n, k + k', Nat.max h h')
          end
      end
  end.

(** exec.cpp:257-268, as Sched.cycle_loop *)
Fixpoint cycle_loop_c (rec : nid -> list nid -> list nid -> option (cycle_res * nat * nat))
         (n : nid) (es : list nid) (seen stack : list nid) : option (cycle_res * nat * nat) :=
  match es with
  | [] => Some ((None, seen, removelast stack, []), 0, 0)
  | m :: es' =>
      match rec m seen stack with
      | None => None
      | Some ((Some p, seen', stack', ev), k, h) =>
          if negb (p =? n) then Some ((Some p, seen', stack', ev), k, h)
          else Some ((Some p, seen', stack', ev ++ [get_cycle stack' p]), k, h)
      | Some ((None, seen', stack', ev), k, h) =>
          match cycle_loop_c rec n es' seen' stack' with
          | None => None
          | Some ((r, seen'', stack'', ev'), k', h') =>
              Some ((r, seen'', stack'', ev ++ ev'), k + k', Nat.max h h')
          end
      end
  end.

(** exec.cpp:243-269, as Sched.check_for_cycle *)
Fixpoint check_for_cycle_c (fuel : nat) (d : dag) (n : nid) (seen stack : list nid)
  : option (cycle_res * nat * nat) :=
  match fuel with
  | O => None
  | S f =>
      if mem n seen then
        (if mem n stack then Some ((Some n, seen, stack, []), 1, 1)
         else Some ((None, seen, stack, []), 1, 1))
      else
        match cycle_loop_c (check_for_cycle_c f d) n (after_targets d n)
                           (set_insert n seen) (stack ++ [n]) with
        | None => None
        | Some (r, k, h) => Some (r, S k, S h)
        end
  end.

(** exec.cpp:270-281, as Sched.has_cycle *)
Fixpoint has_cycle_loop_c (fuel : nat) (d : dag) (nodes : list nid) (seen stack : list nid)
  : option (bool * list (list nid) * nat * nat) :=
  match nodes with
  | [] => Some (false, [], 0, 0)
  | n :: r =>
      match check_for_cycle_c fuel d n seen stack with
      | None => None
      | Some ((Some _, _, _, ev), k, h) => Some (true, ev, k, h)
      | Some ((None, seen', stack', ev), k, h) =>
          match has_cycle_loop_c fuel d r seen' stack' with
          | None => None
          | Some (b, ev', k', h') => Some (b, ev ++ ev', k + k', Nat.max h h')
          end
      end
  end.
Definition has_cycle_c (fuel : nat) (d : dag) (to_process : list nid) :=
  has_cycle_loop_c fuel d to_process [] [].

(** exec.cpp:211-229, as Sched.prop_loop: with the nodes taken up so far and the edges
    looked at so far. *)
Fixpoint prop_loop_c (fuel : nat) (d : dag) (st : nid -> nstate) (todo seen : list nid)
         (ev : list inval_event) (taken edges : nat) : prop_res * nat * nat :=
  match todo with
  | [] => (PropOk st ev, taken, edges)
  | p :: todo' =>
      match fuel with
      | O => (PropFuel, taken, edges)
      | S f =>
          let seen' := set_insert p seen in
          if negb (inval_eqb (ns_inval (st p)) INVALID) then (PropAssert p, taken, edges)
          else
            let es := filter_edges INVALIDATED_BY (in_edges d p) in
            let '(st', todo'', ev') := prop_edges es seen' st todo' ev in
            prop_loop_c f d st' todo'' seen' ev' (S taken) (List.length es + edges)
      end
  end.

(** dag.cpp:21-28, as Dag.dfs_deps *)
Fixpoint dfs_deps_c (rec : tid -> bstate -> build (bstate * nat * nat)) (addr : tid -> nid) (t : tid)
         (ds : list tid) (b : bstate) : build (bstate * nat * nat) :=
  match ds with
  | [] => Built (b, 0, 0)
  | d :: ds' =>
      match rec d b with
      | Built (b', k, h) =>
          let g := add_edge (b_dag b') (addr t) (addr d) AFTER in
          let g := add_edge g (addr t) (addr d) REQUIRES in
          let g := add_edge g (addr t) (addr d) INVALIDATED_BY in
          match dfs_deps_c rec addr t ds' (BState g (b_index b') (b_added b')) with
          | Built (b'', k', h') => Built (b'', k + k', Nat.max h h')
          | r => r
          end
      | r => r
      end
  end.

(** dag.cpp:15-29, as Dag.dfs *)
Fixpoint dfs_c (fuel : nat) (st : store) (tmp : list (string * tid)) (addr : tid -> nid)
         (t : tid) (b : bstate) : build (bstate * nat * nat) :=
  match fuel with
  | O => BuildFuel
  | S f =>
      if mem t (b_index b) then Built (b, 1, 1)
      else if negb (mem t (st_dom st)) then BuildUB
      else
        let name := match tmp_get tmp t with Some n => n | None => EmptyString end in
        let added := match tmp_get tmp t with Some _ => b_added b | None => S (b_added b) end in
        match dfs_deps_c (dfs_c f st tmp addr) addr t (t_depends_on (st_get st t))
                 (BState (emplace (b_dag b) (addr t) name t) (t :: b_index b) added) with
        | Built (b', k, h) => Built (b', S k, S h)
        | r => r
        end
  end.

(** dag.cpp:66-71, as Dag.dfs_all *)
Fixpoint dfs_all_c (fuel : nat) (st : store) (tmp : list (string * tid)) (addr : tid -> nid)
         (filt : string) (tmp' : list (string * tid)) (b : bstate) : build (bstate * nat * nat) :=
  match tmp' with
  | [] => Built (b, 0, 0)
  | (name, t) :: r =>
      if contains filt name then
        match dfs_c fuel st tmp addr t b with
        | Built (b', k, h) =>
            match dfs_all_c fuel st tmp addr filt r b' with
            | Built (b'', k', h') => Built (b'', k + k', Nat.max h h')
            | e => e
            end
        | e => e
        end
      else dfs_all_c fuel st tmp addr filt r b
  end.
