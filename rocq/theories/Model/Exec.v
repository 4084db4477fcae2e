(** src/exec.cpp (exec, run, cleanup_coros), src/run_coro.hpp, src/exec_coro.cpp

    One execution ([exec_coro]) as a labelled transition function.  Labels are
    - the client's calls on the exec_coro object (tick, destruction),
    - micro steps of the control thread inside a tick (one resumption of one
      run_coro, or the code between two passes of cleanup_coros),
    - steps of the job threads: a launched job begins / ends with some outcome,
    - steps of system_clock.
    Between two micro steps any number of job and clock steps may happen; the code
    that is one micro step reads the futures at most once, so finer interleavings
    give nothing new. *)
From Coq Require Import String.
From Verif Require Import Model.Common Model.Records Model.Jobs Model.TaskSet Model.Dag
     Model.Sched.
Open Scope nat_scope.
Open Scope list_scope.

(** Parameters of one execution: arguments of [exec( dag, thread_count, vis )]
    (exec.cpp:295), the tasks the nodes refer to, and what the jobs' is_invalidated
    answers. *)
Record config := Config {
  c_dag     : dag;
  c_threads : nat;
  c_task    : tid -> task;
  c_inval   : nid -> inval_answer }.

(** [n->t] and [n->name] of the node at an address *)
Fixpoint lookup_node (ns : list dnode) (n : nid) : option dnode :=
  match ns with
  | [] => None
  | x :: r => if n_id x =? n then Some x else lookup_node r n
  end.
Definition node_name (d : dag) (n : nid) : string :=
  match lookup_node (d_nodes d) n with Some x => n_name x | None => EmptyString end.
Definition node_task (d : dag) (n : nid) : tid :=
  match lookup_node (d_nodes d) n with Some x => n_task x | None => 0 end.
Definition node_res (c : config) (n : nid) : list rid :=
  t_resources (c_task c (node_task (c_dag c) n)).
Definition node_has_job (c : config) (n : nid) : bool :=
  t_has_job (c_task c (node_task (c_dag c) n)).

(** thread_count == 0 ? std::launch::deferred : std::launch::async (exec.cpp:328) *)
Definition deferred (c : config) : bool := c_threads c =? 0.

(** Exceptions that can end an execution. *)
Inductive exc :=
| ExcCycle            (* exec.cpp:306 *)
| ExcInval (n : nid)  (* thrown by is_invalidated of n's job *)
| ExcLaunch (n : nid) (* std::async could not start a thread *)
| ExcVisitor          (* thrown by a visitor callback *).

(** Observable events: visitor callbacks with their arguments (the exec_record
    argument by value at the time of the call), and what the jobs do. *)
Inductive event :=
| EEnque (n : nid)                                      (* after_node_enque *)
| ECycle (ns : list nid)                                (* on_detected_cycle *)
| EInval (n : nid) (v : inval) (log : string)           (* after_job_is_inval *)
| EDepInval (n m : nid)                                 (* after_dep_inval *)
| EOnTick (er : exec_record)                            (* on_tick *)
| EBeforeRun (er : exec_record) (n : nid)               (* before_run *)
| ELaunch (n : nid)                                     (* std::async called for n's job *)
| EBegin (n : nid)                                      (* n's job starts executing *)
| EEnd (n : nid) (o : job_outcome)                      (* n's job stops executing *)
| ETimeout (n : nid)                                    (* wait_for(0ms) says timeout *)
| ERunLog (n : nid) (log : string)                      (* on_run_log *)
| EAfterRun (er : exec_record) (r : run_record) (n : nid) (* after_run( er, &r, n ) *)
| EAfterExec (er : exec_record)                         (* after_execution *)
| EDestroyed                                            (* ~exec_coro returned *)
| EAsk (n : nid).                                       (* n's job: is_invalidated called *)

(** State of a std::future made by std::async (exec.cpp:134) for a node. *)
Inductive fstate :=
| FNone                    (* no future *)
| FDeferred                (* launch::deferred, not run yet *)
| FPending                 (* launch::async, thread not in the job yet *)
| FRunning                 (* inside the job *)
| FReady (o : job_outcome) (* shared state ready *).

(** run_coro frame: suspended at its start (initial_suspend, run_coro.hpp:33), or
    in the polling loop of exec.cpp:158 with the record under construction. *)
Inductive cstate := CFresh | CWait (rec : run_record).
Record coro := Coro { co_node : nid; co_st : cstate }.

(** An element of [std::vector<run_coro> coros]: the member [node_] (a reference,
    so never rebound, run_coro.hpp:125) and the frame its handle [h_] points to. *)
Record slot := Slot { sl_node : nid; sl_coro : coro }.

(** Main loop (exec.cpp:312) or draining loop (exec.cpp:335). *)
Inductive phase := PMain | PDrain.

Inductive bad :=
| BadNullJob (n : nid)    (* exec.cpp:202 dereferences a null job *)
| BadAssert109 (n : nid)  (* assert( n->invalidated != UNKNOWN ) *)
| BadAssert217 (n : nid)  (* assert( p->invalidated == INVALID ) *)
| BadAssert332            (* assert( !coros.empty() ) *)
| BadResumeDone           (* resuming a coroutine suspended at its final point: UB *)
| BadFuel.                (* a search bound of the model was hit; shown impossible *)

(** Where the exec coroutine is. *)
Inductive pc :=
| Created                                   (* initial_suspend, exec_coro.cpp:20 *)
| Suspended (ph : phase)                    (* co_await at 316/333 or 337 *)
| Clean (ph : phase) (kept : list coro) (rest : list slot)
    (* inside cleanup_coros (181): predicate already applied to the first
       coroutines, of which [kept] stay; [rest] still to be visited *)
| Unwind (e : exc) (rest : list slot)       (* exception left exec's body; destroying coros *)
| Destroying (rest : list slot)             (* inside ~exec_coro, destroying coros *)
| Finished                                  (* final_suspend after co_return *)
| Failed (e : exc)                          (* final_suspend after unhandled_exception *)
| Destroyed
| Bad (b : bad).

Record state := State {
  s_pc    : pc;
  s_todo  : list nid;              (* to_process *)
  s_ns    : nid -> nstate;         (* node flags *)
  s_used  : list rid;              (* used_resources *)
  s_coros : list slot;             (* coros *)
  s_fut   : nid -> fstate;         (* futures living in the run_coro frames *)
  s_erec  : exec_record;           (* erec, later promise.value *)
  s_clock : Z;                     (* system_clock::now() *)
  s_log   : list event             (* history, most recent first *) }.

Definition set_pc (s : state) (p : pc) : state :=
  State p (s_todo s) (s_ns s) (s_used s) (s_coros s) (s_fut s) (s_erec s) (s_clock s) (s_log s).
Definition set_todo (s : state) (x : list nid) : state :=
  State (s_pc s) x (s_ns s) (s_used s) (s_coros s) (s_fut s) (s_erec s) (s_clock s) (s_log s).
Definition set_ns (s : state) (x : nid -> nstate) : state :=
  State (s_pc s) (s_todo s) x (s_used s) (s_coros s) (s_fut s) (s_erec s) (s_clock s) (s_log s).
Definition set_used (s : state) (x : list rid) : state :=
  State (s_pc s) (s_todo s) (s_ns s) x (s_coros s) (s_fut s) (s_erec s) (s_clock s) (s_log s).
Definition set_coros (s : state) (x : list slot) : state :=
  State (s_pc s) (s_todo s) (s_ns s) (s_used s) x (s_fut s) (s_erec s) (s_clock s) (s_log s).
Definition set_fut (s : state) (n : nid) (x : fstate) : state :=
  State (s_pc s) (s_todo s) (s_ns s) (s_used s) (s_coros s) (upd (s_fut s) n x) (s_erec s)
        (s_clock s) (s_log s).
Definition set_erec (s : state) (x : exec_record) : state :=
  State (s_pc s) (s_todo s) (s_ns s) (s_used s) (s_coros s) (s_fut s) x (s_clock s) (s_log s).
Definition set_clock (s : state) (z : Z) : state :=
  State (s_pc s) (s_todo s) (s_ns s) (s_used s) (s_coros s) (s_fut s) (s_erec s) z (s_log s).
Definition emit (s : state) (e : event) : state :=
  State (s_pc s) (s_todo s) (s_ns s) (s_used s) (s_coros s) (s_fut s) (s_erec s) (s_clock s)
        (e :: s_log s).
Definition emits (s : state) (es : list event) : state := fold_left emit es s.

(** exec( dag, .. ) called (exec.cpp:295): the frame is created and suspended. *)
Definition init (clock : Z) : state :=
  State Created [] (fun _ => nstate0) [] [] (fun _ => FNone) erec0 clock [].

Definition inval_to_event (e : inval_event) : event :=
  match e with IvAsk n => EAsk n | IvJob n v l => EInval n v l | IvDep n m => EDepInval n m end.

(** exec.cpp:335-342: the draining loop is entered or re-entered. *)
Definition drain_top (s : state) : state :=
  match s_coros s with
  | [] => set_pc (emit s (EAfterExec (s_erec s))) Finished
  | cs => set_pc s (Clean PDrain [] cs)
  end.

(** exec.cpp:312-314: the main loop is entered or re-entered. *)
Definition main_top (s : state) : state :=
  match s_todo s with
  | [] => drain_top s
  | _ => set_pc (emit s (EOnTick (s_erec s))) (Clean PMain [] (s_coros s))
  end.

(** Bounds for the searches of Model/Sched.v *)
Definition fuel_of (c : config) : nat := S (S (List.length (d_nodes (c_dag c)))).

(** exec.cpp:297-310 and on to the main loop. *)
Definition start (c : config) (s : state) : state :=
  let ids := node_ids (c_dag c) in
  let todo := fold_left (fun l n => set_insert n l) ids [] in
  let s := emits (set_todo s todo) (map EEnque ids) in
  let s := set_erec s (ExecRecord (er_stats (s_erec s)) (List.length todo) (er_runs (s_erec s))) in
  match has_cycle (fuel_of c) (c_dag c) todo with
  | None => set_pc s (Bad BadFuel)
  | Some (true, cycles) => set_pc (emits s (map ECycle cycles)) (Failed ExcCycle)
  | Some (false, cycles) =>
      let s := emits s (map ECycle cycles) in
      match inval_pass (node_has_job c) (c_inval c) todo (s_ns s) [] [] with
      | PassNull n ev => set_pc (emits s (map inval_to_event ev)) (Bad (BadNullJob n))
      | PassThrow n ev => set_pc (emits s (map inval_to_event ev)) (Failed (ExcInval n))
      | PassOk ns prop ev =>
          match prop_loop (fuel_of c) (c_dag c) ns prop prop ev with
          | PropFuel => set_pc s (Bad BadFuel)
          | PropAssert p => set_pc s (Bad (BadAssert217 p))
          | PropOk ns' ev' =>
              main_top (set_ns (emits s (map inval_to_event ev')) ns')
          end
      end
  end.

(** exec.cpp:107 run_record result{ .t = n->t, .name = n->name }.  The defaults of
    [start] and [end] (records.hpp:47, 50) are two readings of the clock, taken as one
    here. *)
Definition new_record (c : config) (n : nid) (now : Z) : run_record :=
  RunRecord n (node_task (c_dag c) n) (node_name (c_dag c) n) OK 0 now now [].

Definition with_status (r : run_record) (st : run_status) : run_record :=
  RunRecord (r_node r) (r_task r) (r_name r) st (r_retcode r) (r_start r) (r_end r) (r_output r).

(** exec.cpp:160-162 and 167-172: the record after the job's result arrived *)
Definition finish_record (r : run_record) (rr : run_result) (now : Z) : run_record :=
  RunRecord (r_node r) (r_task r) (r_name r)
            (if negb (rr_retcode rr =? 0)%Z then FAIL else r_status r)
            (rr_retcode rr) (r_start r) now (rr_output rr).

Definition set_started (s : state) (n : nid) : state :=
  set_ns s (upd (s_ns s) n (NState (ns_inval (s_ns s n)) true (ns_done (s_ns s n))
                                   (ns_failed (s_ns s n)))).
Definition set_done (s : state) (n : nid) : state :=
  set_ns s (upd (s_ns s) n (NState (ns_inval (s_ns s n)) (ns_started (s_ns s n)) true
                                   (ns_failed (s_ns s n)))).
Definition set_failed (s : state) (n : nid) : state :=
  set_ns s (upd (s_ns s) n (NState (ns_inval (s_ns s n)) (ns_started (s_ns s n))
                                   (ns_done (s_ns s n)) true)).

(** exec.cpp:183-191: the run coroutine of slot [sl] has returned [rec];
    after_run gets the slot's [node_].  The slot is dropped. *)
Definition complete (s : state) (ph : phase) (kept : list coro) (sl : slot) (rest : list slot)
           (rec : run_record) : state :=
  let s := emit s (EAfterRun (s_erec s) rec (sl_node sl)) in
  let s := set_erec s (push (s_erec s) rec) in
  set_pc s (Clean ph kept rest).

(** std::erase_if on [coros] (exec.cpp:181): elements that stay are move-assigned
    to the front; the move assignment swaps the handles only (run_coro.hpp:71-75),
    the slots keep their [node_]. *)
Definition compact (cs : list slot) (kept : list coro) : list slot :=
  map (fun p => Slot (fst p) (snd p)) (combine (map sl_node cs) kept).

(** exec.cpp:315-333 after cleanup_coros in the main loop *)
Definition dispatch (c : config) (s : state) : state :=
  if (c_threads c <=? List.length (s_coros s)) && negb (c_threads c =? 0)
  then set_pc s (Suspended PMain)
  else
    match find_candidate (fuel_of c) (c_dag c) (s_ns s) (node_res c) (s_used s) (s_todo s) [] with
    | None => set_pc s (Bad BadFuel)
    | Some r =>
        let s := match r with
                 | Some n => set_coros (set_todo s (set_erase n (s_todo s)))
                                       (s_coros s ++ [Slot n (Coro n CFresh)])
                 | None => s
                 end in
        match s_coros s with
        | [] => set_pc s (Bad BadAssert332)
        | _ => set_pc s (Suspended PMain)
        end
    end.

(** First resumption of a run coroutine up to std::async (exec.cpp:107-156).
    [launch_ok]: whether std::async could start the thread. *)
Definition run_first (c : config) (s : state) (ph : phase) (kept : list coro) (sl : slot)
           (rest : list slot) (launch_ok : bool) : option state :=
  let n := co_node (sl_coro sl) in
  let rec := new_record c n (s_clock s) in
  if inval_eqb (ns_inval (s_ns s n)) UNKNOWN then
    (if launch_ok then Some (set_pc s (Bad (BadAssert109 n))) else None)
  else
    let s := emit s (EBeforeRun (s_erec s) n) in
    if any_dep_failed (c_dag c) (s_ns s) n then
      (if launch_ok
       then Some (complete (set_failed (set_done s n) n) ph kept sl rest (with_status rec DEPF))
       else None)
    else if inval_eqb (ns_inval (s_ns s n)) VALID then
      (if launch_ok
       then Some (complete (set_done s n) ph kept sl rest (with_status rec SKIP))
       else None)
    else
      let s := set_started s n in
      let s := set_used s (fold_left (fun u r => set_insert r u) (node_res c n) (s_used s)) in
      if launch_ok then
        let s := set_fut (emit s (ELaunch n)) n (if deferred c then FDeferred else FPending) in
        Some (set_pc s (Clean ph kept (Slot (sl_node sl) (Coro n (CWait rec)) :: rest)))
      else if deferred c then None
      else
        (* std::system_error is stored in the run_coro's promise and rethrown by
           coro.result() (exec.cpp:185); exec's body is left, [coros] is destroyed.
           The frame of this run_coro is already finished. *)
        Some (set_pc s (Unwind (ExcLaunch n) (map (fun k => Slot (co_node k) k) kept ++ rest))).

(** Polling (exec.cpp:158-173). *)
Definition run_poll (c : config) (s : state) (ph : phase) (kept : list coro) (sl : slot)
           (rest : list slot) (rec : run_record) : option state :=
  let n := co_node (sl_coro sl) in
  match s_fut s n with
  | FNone => None
  | FDeferred =>
      (* wait_for gives future_status::deferred; get() calls the job here *)
      Some (set_fut (emit s (EBegin n)) n FRunning)
  | FPending => Some (set_pc (emit s (ETimeout n)) (Clean ph (kept ++ [sl_coro sl]) rest))
  | FRunning =>
      if deferred c then None   (* the control thread is inside the job *)
      else Some (set_pc (emit s (ETimeout n)) (Clean ph (kept ++ [sl_coro sl]) rest))
  | FReady o =>
      let rr := run_lambda o in
      let rec' := finish_record rec rr (s_clock s) in
      let s := emit s (ERunLog n (rr_log rr)) in
      let s := set_used s (fold_left (fun u r => set_erase r u) (node_res c n) (s_used s)) in
      let s := if negb (rr_retcode rr =? 0)%Z then set_failed s n else s in
      let s := set_done s n in
      Some (complete s ph kept sl rest rec')
  end.

(** Destruction of the first run_coro of [rest]: the destructor of a future of
    std::async( launch::async ) waits for the job. [None]: blocked. *)
Definition destroy_one (s : state) (sl : slot) : bool :=
  match co_st (sl_coro sl) with
  | CFresh => true
  | CWait _ =>
      match s_fut s (co_node (sl_coro sl)) with
      | FPending | FRunning => false
      | _ => true
      end
  end.

(** One micro step of the control thread; [None]: not in a tick, or blocked. *)
Definition ctl (c : config) (s : state) (launch_ok : bool) : option state :=
  match s_pc s with
  | Clean ph kept (sl :: rest) =>
      match co_st (sl_coro sl) with
      | CFresh => run_first c s ph kept sl rest launch_ok
      | CWait rec => if launch_ok then run_poll c s ph kept sl rest rec else None
      end
  | Clean ph kept [] =>
      if launch_ok then
        let s := set_coros s (compact (s_coros s) kept) in
        match ph with
        | PMain => Some (dispatch c s)
        | PDrain => Some (set_pc s (Suspended PDrain))
        end
      else None
  | Unwind e rest =>
      if launch_ok then
        match rest with
        | [] => Some (set_pc (set_coros s []) (Failed e))
        | sl :: rest' => if destroy_one s sl then Some (set_pc s (Unwind e rest')) else None
        end
      else None
  | Destroying rest =>
      if launch_ok then
        match rest with
        | [] => Some (set_pc (set_coros (emit s EDestroyed) []) Destroyed)
        | sl :: rest' => if destroy_one s sl then Some (set_pc s (Destroying rest')) else None
        end
      else None
  | _ => None
  end.

(** Is the event a call of a visitor member function? *)
Definition is_callback (e : event) : bool :=
  match e with
  | ELaunch _ | EBegin _ | EEnd _ _ | ETimeout _ | EDestroyed | EAsk _ => false
  | _ => true
  end.

(** The events up to and including the (k+1)-th visitor callback. *)
Fixpoint cut_at (k : nat) (es : list event) : option (list event) :=
  match es with
  | [] => None
  | e :: r =>
      if is_callback e
      then match k with
           | O => Some [e]
           | S k' => option_map (cons e) (cut_at k' r)
           end
      else option_map (cons e) (cut_at k r)
  end.

(** The control thread would go from [s] to [s'], but the (k+1)-th visitor callback
    made on the way throws.  Callbacks made in exec's body leave it directly, those
    made in a run coroutine are stored in its promise and rethrown by coro.result()
    (exec.cpp:185, run_coro.hpp:86-87); either way exec's body is left and its locals
    are destroyed, the run coroutines among them.  What the step did to the node flags
    is not tracked, it cannot be observed any more. *)
Definition visitor_throws (k : nat) (s s' : state) : option state :=
  let new := rev (firstn (List.length (s_log s') - List.length (s_log s)) (s_log s')) in
  match cut_at k new with
  | None => None
  | Some es =>
      let rest := match s_pc s with
                  | Clean _ kept rest => map (fun k => Slot (co_node k) k) kept ++ rest
                  | _ => s_coros s
                  end in
      Some (set_pc (emits s es) (Unwind ExcVisitor rest))
  end.

(** exec_coro::tick() (exec_coro.cpp:73-77): resume the coroutine. *)
Definition tick (c : config) (s : state) : option state :=
  match s_pc s with
  | Created => Some (start c s)
  | Suspended PMain => Some (main_top s)
  | Suspended PDrain => Some (drain_top s)
  | Finished | Failed _ => Some (set_pc s (Bad BadResumeDone))
  | _ => None
  end.

Inductive label :=
| LTick                              (* exec_coro::tick(), exec_coro.cpp:73-77 *)
| LDestroy                           (* ~exec_coro(), exec_coro.cpp:91-95 *)
| LCtl                               (* micro step of the control thread *)
| LLaunchFail                        (* as LCtl, but std::async throws *)
| LVisThrow (k : nat)                (* as LTick or LCtl, but the visitor throws *)
| LBegin (n : nid)                   (* a job thread enters n's job *)
| LEnd (n : nid) (o : job_outcome)   (* n's job ends *)
| LClock (now : Z).                  (* system_clock changes *)

(** The transition function; [None]: the label is not possible in this state. *)
Definition step (c : config) (s : state) (l : label) : option state :=
  match l with
  | LTick => tick c s
  | LDestroy =>
      match s_pc s with
      | Created | Suspended _ | Finished | Failed _ =>
          Some (set_pc s (Destroying (s_coros s)))
      | _ => None
      end
  | LCtl => ctl c s true
  | LLaunchFail => ctl c s false
  | LVisThrow k =>
      match (match s_pc s with
             | Created | Suspended _ => tick c s
             | Clean _ _ _ => ctl c s true
             | _ => None
             end) with
      | Some s' => visitor_throws k s s'
      | None => None
      end
  | LBegin n =>
      match s_fut s n with
      | FPending => Some (set_fut (emit s (EBegin n)) n FRunning)
      | _ => None
      end
  | LEnd n o =>
      match s_fut s n with
      | FRunning => Some (set_fut (emit s (EEnd n o)) n (FReady o))
      | _ => None
      end
  | LClock z => Some (set_clock s z)
  end.

(** A finite history. *)
Fixpoint run_labels (c : config) (s : state) (ls : list label) : option state :=
  match ls with
  | [] => Some s
  | l :: r => match step c s l with Some s' => run_labels c s' r | None => None end
  end.

(** exec_coro::done() (exec_coro.cpp:58-61) *)
Definition done (s : state) : bool :=
  match s_pc s with Finished | Failed _ => true | _ => false end.

(** exec_coro::result() (exec_coro.cpp:63-71) *)
Inductive result_of := RNone | RRecord (er : exec_record) | RThrow (e : exc).
Definition result (s : state) : result_of :=
  match s_pc s with
  | Failed e => RThrow e
  | Finished => RRecord (s_erec s)
  | _ => RNone
  end.

(** The control thread is inside a call of tick(): the coroutine is neither suspended
    nor finished. *)
Definition tick_running (s : state) : bool :=
  match s_pc s with Clean _ _ _ | Unwind _ _ => true | _ => false end.

(** Labels of others than the control thread. *)
Definition env_label (l : label) : bool :=
  match l with LBegin _ | LEnd _ _ | LClock _ => true | _ => false end.

(** Labels possible during a call of tick(). *)
Definition inner_label (l : label) : bool :=
  match l with LTick | LDestroy => false | _ => true end.

(** exec_coro::run() (exec_coro.cpp:79-89): [while ( !done() ) { sleep; tick(); }
    return result();].  [run_call c s r s']: called in state [s] it returns (or
    rethrows) [r], leaving state [s'].  The first label of a tick is LTick or, if the
    visitor throws in it, LVisThrow. *)
Inductive run_call (c : config) : state -> result_of -> state -> Prop :=
| RunDone s : done s = true -> run_call c s (result s) s
| RunTick s ls1 s1 l s2 ls2 s3 r s4 :
    done s = false ->
    forallb env_label ls1 = true -> run_labels c s ls1 = Some s1 ->
    (l = LTick \/ exists k, l = LVisThrow k) -> step c s1 l = Some s2 ->
    forallb inner_label ls2 = true -> run_labels c s2 ls2 = Some s3 -> tick_running s3 = false ->
    run_call c s3 r s4 ->
    run_call c s r s4.
