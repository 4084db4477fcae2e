(** src/exec.cpp:37-98 and 195-281: the graph searches of the scheduler. *)
From Coq Require Import String.
From Verif Require Import Model.Common Model.TaskSet Model.Dag.
Open Scope nat_scope.
Open Scope list_scope.

(** dag.hpp:56-61 *)
Inductive inval := VALID | INVALID | UNKNOWN.
Definition inval_eqb (a b : inval) : bool :=
  match a, b with
  | VALID, VALID | INVALID, INVALID | UNKNOWN, UNKNOWN => true
  | _, _ => false
  end.

(** dag.hpp:71-80 the mutable part of node_content *)
Record nstate := NState {
  ns_inval : inval; ns_started : bool; ns_done : bool; ns_failed : bool }.
Definition nstate0 : nstate := NState UNKNOWN false false false.

Definition edge_targets (es : list edge) : list nid := map e_tgt es.

(** The targets of [filter_edges<AFTER>( n.out_edges() )] (exec.cpp:72, 256) *)
Definition after_targets (d : dag) (n : nid) : list nid :=
  edge_targets (filter_edges AFTER (out_edges d n)).

(** exec.cpp:37-43 all_done *)
Definition all_done (st : nid -> nstate) (targets : list nid) : bool :=
  forallb (fun m => ns_done (st m)) targets.

(** exec.cpp:45-52 any_dep_failed *)
Definition any_dep_failed (d : dag) (st : nid -> nstate) (n : nid) : bool :=
  existsb (fun e => ns_failed (st (e_tgt e))) (filter_edges REQUIRES (out_edges d n)).

(** exec.cpp:54-60 any_resource_used *)
Definition any_resource_used (rs used : list rid) : bool :=
  existsb (fun r => mem r used) rs.

(** exec.cpp:72-83: the loop over the after-edges, then the check of [n] itself.
    [None]: out of fuel.  [Some (r, seen)]: the result pointer and the updated set. *)
Fixpoint find_loop (rec : nid -> list nid -> option (option nid * list nid))
         (self : option nid) (es : list nid) (seen : list nid)
  : option (option nid * list nid) :=
  match es with
  | [] => Some (self, seen)
  | m :: es' =>
      match rec m seen with
      | None => None
      | Some (Some r, seen') => Some (Some r, seen')
      | Some (None, seen') => find_loop rec self es' seen'
      end
  end.

(** exec.cpp:62-84 find_candidate for one node.  [self] is what is returned when the loop
    ends (80-83). *)
Fixpoint find_node (fuel : nat) (d : dag) (st : nid -> nstate) (res : nid -> list rid)
         (used : list rid) (n : nid) (seen : list nid) : option (option nid * list nid) :=
  match fuel with
  | O => None
  | S f =>
      if ns_started (st n) || ns_done (st n) || mem n seen then Some (None, seen)
      else
        let es := after_targets d n in
        let self := if negb (all_done st es) || any_resource_used (res n) used
                    then None else Some n in
        find_loop (find_node f d st res used) self es (set_insert n seen)
  end.

(** exec.cpp:86-98 find_candidate over the set of nodes *)
Fixpoint find_candidate (fuel : nat) (d : dag) (st : nid -> nstate) (res : nid -> list rid)
         (used : list rid) (nodes : list nid) (seen : list nid) : option (option nid) :=
  match nodes with
  | [] => Some None
  | c :: r =>
      match find_node fuel d st res used c seen with
      | None => None
      | Some (Some n, _) => Some (Some n)
      | Some (None, seen') => find_candidate fuel d st res used r seen'
      end
  end.

(** exec.cpp:232-241 get_cycle: the stack (bottom first) from the first
    occurrence of [n] on *)
Fixpoint get_cycle (stack : list nid) (n : nid) : list nid :=
  match stack with
  | [] => []
  | x :: r => if x =? n then x :: r else get_cycle r n
  end.

(** Result of check_for_cycle: returned pointer, [seen], [stack] (bottom first) and
    the arguments of the calls of [vis.on_detected_cycle]. *)
Definition cycle_res : Type := option nid * list nid * list nid * list (list nid).

(** exec.cpp:257-268: loop over the edges; on success of the search stack and seen
    are left as they are, otherwise the stack is popped. *)
Fixpoint cycle_loop (rec : nid -> list nid -> list nid -> option cycle_res)
         (n : nid) (es : list nid) (seen stack : list nid) : option cycle_res :=
  match es with
  | [] => Some (None, seen, removelast stack, [])
  | m :: es' =>
      match rec m seen stack with
      | None => None
      | Some (Some p, seen', stack', ev) =>
          if negb (p =? n) then Some (Some p, seen', stack', ev)
          else Some (Some p, seen', stack', ev ++ [get_cycle stack' p])
      | Some (None, seen', stack', ev) =>
          match cycle_loop rec n es' seen' stack' with
          | None => None
          | Some (r, seen'', stack'', ev') => Some (r, seen'', stack'', ev ++ ev')
          end
      end
  end.

(** exec.cpp:243-269 check_for_cycle *)
Fixpoint check_for_cycle (fuel : nat) (d : dag) (n : nid) (seen stack : list nid)
  : option cycle_res :=
  match fuel with
  | O => None
  | S f =>
      if mem n seen then
        (if mem n stack then Some (Some n, seen, stack, []) else Some (None, seen, stack, []))
      else
        cycle_loop (check_for_cycle f d) n (after_targets d n)
                   (set_insert n seen) (stack ++ [n])
  end.

(** exec.cpp:270-281 has_cycle.  Returns the boolean and the on_detected_cycle
    calls; [None]: out of fuel. *)
Fixpoint has_cycle_loop (fuel : nat) (d : dag) (nodes : list nid) (seen stack : list nid)
  : option (bool * list (list nid)) :=
  match nodes with
  | [] => Some (false, [])
  | n :: r =>
      match check_for_cycle fuel d n seen stack with
      | None => None
      | Some (Some _, _, _, ev) => Some (true, ev)
      | Some (None, seen', stack', ev) =>
          match has_cycle_loop fuel d r seen' stack' with
          | None => None
          | Some (b, ev') => Some (b, ev ++ ev')
          end
      end
  end.
Definition has_cycle (fuel : nat) (d : dag) (to_process : list nid) :=
  has_cycle_loop fuel d to_process [] [].

(** What [job_iface::is_invalidated] (job.hpp:16) does for a node's job. *)
Inductive inval_answer := IvRet (invalidated : bool) (log : string) | IvThrow.

(** Visitor calls of propagate_invalidation. *)
Inductive inval_event :=
| IvAsk (n : nid)                              (* n->t.job->is_invalidated() is called *)
| IvJob (n : nid) (v : inval) (log : string)   (* after_job_is_inval; v: n->invalidated *)
| IvDep (n m : nid).                           (* after_dep_inval( n, m ) *)

(** exec.cpp:199-210, first loop.  Stops at a null job (UB) or an exception. *)
Inductive pass_res :=
| PassOk (st : nid -> nstate) (to_propagate : list nid) (ev : list inval_event)
| PassNull (n : nid) (ev : list inval_event)
| PassThrow (n : nid) (ev : list inval_event).

Definition set_inval (st : nid -> nstate) (n : nid) (v : inval) : nid -> nstate :=
  upd st n (NState v (ns_started (st n)) (ns_done (st n)) (ns_failed (st n))).

Fixpoint inval_pass (has_job : nid -> bool) (ask : nid -> inval_answer) (ns : list nid)
         (st : nid -> nstate) (prop : list nid) (ev : list inval_event) : pass_res :=
  match ns with
  | [] => PassOk st prop ev
  | n :: r =>
      if negb (has_job n) then PassNull n ev
      else
        match ask n with
        | IvThrow => PassThrow n (ev ++ [IvAsk n])
        | IvRet b log =>
            let v := if b then INVALID else VALID in
            let prop' := if b then set_insert n prop else prop in
            inval_pass has_job ask r (set_inval st n v) prop' (ev ++ [IvAsk n; IvJob n v log])
        end
  end.

(** exec.cpp:218-228, loop over the invalidated-by edges into [p]. *)
Fixpoint prop_edges (es : list edge) (seen : list nid) (st : nid -> nstate)
         (todo : list nid) (ev : list inval_event)
  : (nid -> nstate) * list nid * list inval_event :=
  match es with
  | [] => (st, todo, ev)
  | e :: r =>
      if mem (e_src e) seen then prop_edges r seen st todo ev
      else prop_edges r seen (set_inval st (e_src e) INVALID) (set_insert (e_src e) todo)
                      (ev ++ [IvDep (e_src e) (e_tgt e)])
  end.

(** exec.cpp:211-229, the worklist. *)
Inductive prop_res :=
| PropOk (st : nid -> nstate) (ev : list inval_event)
| PropAssert (p : nid)     (* the assertion of line 217 fails *)
| PropFuel.                (* bound of the model; shown impossible *)

Fixpoint prop_loop (fuel : nat) (d : dag) (st : nid -> nstate) (todo seen : list nid)
         (ev : list inval_event) : prop_res :=
  match todo with
  | [] => PropOk st ev
  | p :: todo' =>
      match fuel with
      | O => PropFuel
      | S f =>
          let seen' := set_insert p seen in
          if negb (inval_eqb (ns_inval (st p)) INVALID) then PropAssert p
          else
            let '(st', todo'', ev') :=
              prop_edges (filter_edges INVALIDATED_BY (in_edges d p)) seen' st todo' ev in
            prop_loop f d st' todo'' seen' ev'
      end
  end.
