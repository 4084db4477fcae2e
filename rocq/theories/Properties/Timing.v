(** When run() ticks and how long it takes: C88. *)
From Coq Require Import String.
From Verif Require Import Model.Common Model.Records Model.Jobs Model.TaskSet Model.Dag Model.Sched Model.Exec Model.RunLoop
     Spec.Graph Spec.Trace Spec.Timing Properties.Demo Proofs.DemoFacts Proofs.LoopFacts.
Open Scope nat_scope.
Open Scope list_scope.

(** * C88 The period of run() *)

(** A call of run() with its times is a call of run() as in C25. *)
Theorem C88_returns : forall c period s t0 ts r s' fin, run_at c period s t0 ts r s' fin -> run_call c s r s'.
Proof. exact run_is_run. Qed.
Print Assumptions C88_returns.

(** The i-th tick (from 0) does not begin before i periods have passed, nor before the tick
    before it has returned. *)
Theorem C88_not_before_partial : forall c period s t0 ts r s' fin i b e,
  run_at c period s t0 ts r s' fin -> nth_error ts i = Some (b, e) ->
  (t0 + Z.of_nat i * period <= b /\ b <= e <= fin /\ forall b' e', nth_error ts (S i) = Some (b', e') -> e <= b')%Z.
Proof. exact run_schedule. Qed.
Print Assumptions C88_not_before_partial.

(** So k ticks begun within the time d take more than k - 1 periods. *)
Theorem C88_rate : forall c period s t0 ts r s' fin d,
  (0 <= period)%Z -> run_at c period s t0 ts r s' fin -> begun_before (t0 + d) ts <> 0 ->
  ((Z.of_nat (begun_before (t0 + d) ts) - 1) * period < d)%Z.
Proof. exact run_rate. Qed.
Print Assumptions C88_rate.

(** If the sleeps are exact and no tick takes longer than the period, the ticks begin exactly
    one period apart, with no drift.  Exact sleeps are those of the earliest times the loop allows: every
    call of run() could have been made, with the same effects and with ticks of the same durations, with
    exact sleeps, and then no tick begins later. *)
Theorem C88_punctual : forall c period s t0 ts r s' fin,
  run_at c period s t0 ts r s' fin ->
  (on_time period t0 t0 ts -> ticks_within period ts ->
   forall i b e, nth_error ts i = Some (b, e) -> (b = t0 + Z.of_nat i * period)%Z) /\
  (exists ts' fin', run_at c period s t0 ts' r s' fin' /\ on_time period t0 t0 ts' /\
    Forall2 (fun x y => fst x <= fst y /\ snd x - fst x = snd y - fst y)%Z ts' ts /\ (fin' <= fin)%Z).
Proof. exact run_punctual. Qed.
Print Assumptions C88_punctual.

(** Running n > 0 tasks to their record takes at least n + 2 ticks, so at least n + 1 periods,
    however fast the jobs are and whatever the thread count is; with thread_count 0 it is
    exactly n + 2 ticks. *)
Theorem C88_at_least : forall c period z t0 ts er s' fin,
  wf_dag (c_dag c) -> (0 <= period)%Z -> run_at c period (init z) t0 ts (RRecord er) s' fin -> node_ids (c_dag c) <> [] ->
  List.length (node_ids (c_dag c)) + 2 <= List.length ts /\
  (c_threads c = 0 -> List.length ts = List.length (node_ids (c_dag c)) + 2) /\
  (t0 + (Z.of_nat (List.length (node_ids (c_dag c))) + 1) * period <= fin)%Z.
Proof. exact run_least. Qed.
Print Assumptions C88_at_least.

(** It takes at most n + 2 ticks (1 if n = 0) and one more for each poll that finds a job running; with
    exact sleeps and ticks not longer than the period, that many periods. *)
Theorem C88_at_most : forall c period z t0 ts er s' fin,
  wf_dag (c_dag c) -> run_at c period (init z) t0 ts (RRecord er) s' fin ->
  List.length ts <= (if List.length (node_ids (c_dag c)) =? 0 then 1 else List.length (node_ids (c_dag c)) + 2) + timeouts (trace s') /\
  (on_time period t0 t0 ts -> ticks_within period ts -> (fin <= t0 + Z.of_nat (List.length ts) * period)%Z).
Proof. exact run_most. Qed.
Print Assumptions C88_at_most.

(** The demo with thread_count 0: ticks that take one unit, and ticks that take 12 if a job is
    executed in them; the period is 5. *)
Definition quick (ls : list label) : Z := 1.
Definition slow (ls : list label) : Z :=
  if existsb (fun l => match l with LEnd _ _ => true | _ => false end) ls then 12 else 1.
Definition demo_ticks : list (list label) := tl (tick_chunks (demo_run 0 all_ok)).
Definition slow_times : list (Z * Z) := [(0, 1); (5, 17); (17, 29); (29, 41); (41, 42); (42, 54); (54, 66); (66, 67)]%Z.
Definition quick_times : list (Z * Z) := [(0, 1); (5, 6); (10, 11); (15, 16); (20, 21); (25, 26); (30, 31); (35, 36)]%Z.

Lemma demo_plays dur ts fin :
  match play (demo 0) 5 dur (init 0) 0 0 demo_ticks with
  | Some (x, s, f) => x = ts /\ f = fin /\ match result s with RRecord _ => True | _ => False end
  | None => False
  end ->
  exists er s, run_at (demo 0) 5 (init 0) 0 ts (RRecord er) s fin /\ on_time 5 0 0 ts.
Proof.
  destruct (play (demo 0) 5 dur (init 0) 0 0 demo_ticks) as [[[x s] f]|] eqn:E; [|intros []].
  intros (-> & -> & H). destruct (play_ok _ _ _ _ _ _ _ _ _ _ E) as [A B].
  destruct (result s) as [|er|] eqn:Er; try destruct H. exists er, s. split; [exact A|exact B].
Qed.

Lemma demo_slow : exists er s, run_at (demo 0) 5 (init 0) 0 slow_times (RRecord er) s 67 /\ on_time 5 0 0 slow_times.
Proof. apply (demo_plays slow). vm_compute. repeat split. Qed.
Lemma demo_quick : exists er s, run_at (demo 0) 5 (init 0) 0 quick_times (RRecord er) s 36 /\ on_time 5 0 0 quick_times.
Proof. apply (demo_plays quick). vm_compute. repeat split. Qed.

(** The time between two ticks is not the period: after a tick that took longer, run() calls
    tick() without a pause until it has caught up with the schedule. *)
Theorem C88_refuted : exists c period z t0 ts er s' fin i b e b' e',
  wf_dag (c_dag c) /\ (0 < period)%Z /\ run_at c period (init z) t0 ts (RRecord er) s' fin /\ on_time period t0 t0 ts /\
  nth_error ts i = Some (b, e) /\ nth_error ts (S i) = Some (b', e') /\ (e - b < period)%Z /\ b' = e.
Proof.
  destruct demo_slow as (er & s & A & B).
  exists (demo 0), 5%Z, 0%Z, 0%Z, slow_times, er, s, 67%Z, 4, 41%Z, 42%Z, 42%Z, 54%Z.
  split; [exact wf_demo|]. split; [reflexivity|]. split; [exact A|]. split; [exact B|]. repeat split.
Qed.
Print Assumptions C88_refuted.

(** Six tasks in eight ticks. *)
Example C88_case : exists er s,
  run_at (demo 0) 5 (init 0) 0 quick_times (RRecord er) s 36 /\ on_time 5 0 0 quick_times /\ ticks_within 5 quick_times /\
  wf_dag (c_dag (demo 0)) /\ node_ids (c_dag (demo 0)) <> [] /\ List.length (node_ids (c_dag (demo 0))) = 6 /\
  begun_before (0 + 11) quick_times = 3.
Proof.
  destruct demo_quick as (er & s & A & B). exists er, s. split; [exact A|]. split; [exact B|]. split.
  - intros b e H. cbn in H. repeat (destruct H as [H|H]; [injection H as <- <-; discriminate|]). destruct H.
  - split; [exact wf_demo|]. split; [vm_compute; discriminate|]. split; vm_compute; reflexivity.
Qed.
