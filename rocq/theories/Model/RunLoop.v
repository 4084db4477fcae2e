(** exec_coro::run( period ) (src/exec_coro.cpp:79-89) with the times at which it ticks, on
    std::chrono::steady_clock. *)
From Verif Require Import Model.Common Model.Records Model.Jobs Model.TaskSet Model.Dag Model.Sched Model.Exec.
Open Scope Z_scope.
Open Scope list_scope.

(** A call of tick() from its first step to its return: the control thread is in the call
    before each of the labels and not after the last. *)
Fixpoint tick_to (c : config) (s : state) (ls : list label) : option state :=
  match ls with
  | [] => if tick_running s then None else Some s
  | l :: r =>
      if tick_running s
      then match step c s l with Some s' => tick_to c s' r | None => None end
      else None
  end.

(** The loop (exec_coro.cpp:82-88): [now] is the time and [next] the variable, [ts] are the times
    at which the calls of tick() begin and return, [fin] is the time at which run() returns [r].
    sleep_until( next ) returns at some time that is not before [next] (and not before the
    present: the clock is steady); it may return later.  The jobs go on meanwhile.  A tick begins
    with LTick or, if the visitor throws in its first part, LVisThrow. *)
Inductive run_loop (c : config) (period : Z) : state -> Z -> Z -> list (Z * Z) -> result_of -> state -> Z -> Prop :=
| LoopDone s now next : done s = true -> run_loop c period s now next [] (result s) s now
| LoopTick s now next ls1 s1 b l s2 ls2 s3 e ts r s4 fin :
    done s = false ->
    forallb env_label ls1 = true -> run_labels c s ls1 = Some s1 ->
    now <= b -> next <= b ->
    (l = LTick \/ exists k, l = LVisThrow k) -> step c s1 l = Some s2 ->
    tick_to c s2 ls2 = Some s3 -> b <= e ->
    run_loop c period s3 e (next + period) ts r s4 fin ->
    run_loop c period s now next ((b, e) :: ts) r s4 fin.

(** run( period ) called at [t0]: [next] is the present (exec_coro.cpp:81). *)
Definition run_at (c : config) (period : Z) (s : state) (t0 : Z) (ts : list (Z * Z)) (r : result_of) (s' : state) (fin : Z) : Prop :=
  run_loop c period s t0 t0 ts r s' fin.
