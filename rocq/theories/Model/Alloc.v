(** Running out of memory: an exception such as std::bad_alloc thrown by the library's own
    statements anywhere inside a call of tick().

    Model/Exec.v has no such event: there only std::async and the visitor throw.  Here one
    label is added to it, and nothing of it is changed. *)
From Verif Require Import Model.Common Model.Records Model.Jobs Model.Dag Model.Sched Model.Exec.
Open Scope nat_scope.
Open Scope list_scope.

(** An execution and whether an allocation has failed in it.  Once it has, the exception in
    [Unwind] and [Failed] is the std::bad_alloc; the constructor used for it there,
    [ExcVisitor], is only a marker. *)
Record xstate := XState { x_s : state; x_nomem : bool }.
Definition xinit (z : Z) : xstate := XState (init z) false.

Inductive xlabel :=
| XDo (l : label)                    (* as in Exec.v *)
| XFail (k : nat).                   (* as LTick or LCtl, but an allocation fails after the
                                        first k events of the step *)

(** The statements of a step at which something is allocated.
    - First tick (exec.cpp:298-311): [to_process.insert] (:300), the containers of has_cycle
      (:231-282) and of propagate_invalidation (:199-228).
    - Resuming at the head of a loop (exec.cpp:312, 335): the copy of the record at
      co_return (:342), after after_execution (:340).
    - After the clean-up (exec.cpp:320-331): the set of find_candidate (:86-98), the frame of
      run() and [coros.push_back] (:324).
    - First resumption of a task (exec.cpp:107-156): the record's name (:107),
      [used_resources.insert] (:132), the shared state of std::async (:134).
    - Resumption of a task whose future is ready (exec.cpp:160-190): fut.get() rethrowing
      what left the handlers of the lambda (:141-153), the record, [push] (:190).
    While a task only polls its future nothing is allocated (exec.cpp:158-159).
    Simplification: a step that allocates may fail after any of its events, also where the
    code allocates nothing between two of them. *)
Definition may_allocate (s : state) : bool :=
  match s_pc s with
  | Created | Suspended _ | Clean _ _ [] => true
  | Clean _ _ (sl :: _) =>
      match co_st (sl_coro sl), s_fut s (co_node (sl_coro sl)) with
      | CFresh, _ => true
      | CWait _, FReady _ => true
      | CWait _, _ => false
      end
  | _ => false
  end.

(** Events after which an allocation of the same step can fail: calls of the visitor and
    of is_invalidated.  Between std::async and fut.get() nothing is allocated
    (exec.cpp:134-160). *)
Definition may_precede (e : event) : bool :=
  match e with EAsk _ => true | _ => is_callback e end.

(** The control thread would go from [s] to [s'], but an allocation fails after the first
    [k] events made on the way: exec's body is left and its locals, among them [coros], are
    destroyed, as when the visitor throws (Exec.v, visitor_throws). *)
Definition alloc_fails (k : nat) (s s' : state) : option state :=
  let new := rev (firstn (List.length (s_log s') - List.length (s_log s)) (s_log s')) in
  let es := firstn k new in
  let rest := match s_pc s with
              | Clean _ kept rest => map (fun k => Slot (co_node k) k) kept ++ rest
              | _ => s_coros s
              end in
  if (k <=? List.length new) && forallb may_precede es
  then Some (set_pc (emits s es) (Unwind ExcVisitor rest))
  else None.

Definition xstep (c : config) (x : xstate) (l : xlabel) : option xstate :=
  match l with
  | XDo l => option_map (fun s => XState s (x_nomem x)) (step c (x_s x) l)
  | XFail k =>
      let s := x_s x in
      if may_allocate s then
        match (match s_pc s with Clean _ _ _ => ctl c s true | _ => tick c s end) with
        | Some s' => option_map (fun s => XState s true) (alloc_fails k s s')
        | None => None
        end
      else None
  end.

Fixpoint xrun (c : config) (x : xstate) (ls : list xlabel) : option xstate :=
  match ls with
  | [] => Some x
  | l :: r => match xstep c x l with Some x' => xrun c x' r | None => None end
  end.

(** exec_coro::result() (exec_coro.cpp:63-71) *)
Inductive xresult_of := XNone | XRecord (er : exec_record) | XThrow (e : exc) | XNoMemory.
Definition xresult (x : xstate) : xresult_of :=
  match result (x_s x) with
  | RNone => XNone
  | RRecord er => XRecord er
  | RThrow e => if x_nomem x then XNoMemory else XThrow e
  end.
