(** Executions that share the default visitor: C87. *)
From Coq Require Import String Lia.
From Verif Require Import Model.Common Model.Records Model.Jobs Model.TaskSet Model.Dag
     Model.Sched Model.Exec Model.World Model.Text Model.Process Model.Format Model.Visitor Model.SharedVisitor
     Spec.Graph Spec.Trace Spec.World Spec.Tasks Spec.Report Spec.Shared
     Properties.Demo Proofs.DemoFacts Proofs.Sets Proofs.WorldFacts Proofs.SharedFacts.
Open Scope string_scope.
Open Scope nat_scope.
Open Scope list_scope.

(** * C87 Executions that share the default visitor *)

(** Several executions, ticked in turn in any way, are given one print_exec_visitor.  If each
    is destroyed only after it has reported its end, or if it began no task, then the visitor
    never reads a node that was deleted.  And what it prints for an execution is what it
    would print if it had a visitor of its own, but for the status lines, of which at least
    the one of each begun task is printed. *)
Theorem C87_shared : forall is cs z ls w verbose,
  (forall i, wf_dag (c_dag (cs i))) -> (forall i l, In (i, l) ls -> In i is) ->
  run_world cs (world_init z) ls = Some w -> ended_before_destroyed w ->
  exists v out, watch_world is cs (world_init z) (print_visitor verbose) ls = WOk v out /\
    forall i, exists v1 out1, watch_exec (cs i) (print_visitor verbose) (trace (w i)) = VOk v1 out1 /\
      lasting (printed_for i out) = lasting out1 /\
      (forall er n, In (EBeforeRun er n) (trace (w i)) -> shown (cs i) verbose n ->
         In (i, PStart er (node_name (c_dag (cs i)) n)) out).
Proof. exact shared_visitor. Qed.
Print Assumptions C87_shared.

(** A status line printed for execution [i] shows a counter of [i] within its total, and the
    name of a task that one of the executions began. *)
Theorem C87_status : forall is cs z ls w verbose v out,
  (forall i, wf_dag (c_dag (cs i))) -> (forall i l, In (i, l) ls -> In i is) ->
  (forall i j n, In n (node_ids (c_dag (cs i))) -> In n (node_ids (c_dag (cs j))) -> i = j) ->
  run_world cs (world_init z) ls = Some w -> ended_before_destroyed w ->
  watch_world is cs (world_init z) (print_visitor verbose) ls = WOk v out ->
  forall i er name now, In (i, PStart er name) out ->
    (exists text count, render now (PStart er name) = Some text /\
       shows_counter now GRAY RESET text count (List.length (node_ids (c_dag (cs i)))) /\
       1 <= count <= List.length (node_ids (c_dag (cs i)))) /\
    exists j n, shown (cs j) verbose n /\ task_begun (trace (w j)) n /\ node_name (c_dag (cs j)) n = name.
Proof. exact shared_status. Qed.
Print Assumptions C87_status.

Definition other_set : task_set := TaskSet [("other", 6)] [].
Definition other_dag : dag :=
  match insert_set dag0 demo_store other_set "" (fun t => t + 10) (fun l => l) (fun l => l) with
  | Built (g, _) => g
  | _ => dag0
  end.
Definition other : config := Config other_dag 1 demo_tasks (fun _ => IvRet true "").
Definition two (i : nat) : config :=
  match i with 0 => demo 1 | 1 => other | _ => Config dag0 1 demo_tasks (fun _ => IvRet true "") end.
Lemma wf_other : wf_dag (c_dag other).
Proof. split; [repeat constructor; intros []|]. intros e []. Qed.
Lemma wf_two i : wf_dag (c_dag (two i)).
Proof.
  destruct i as [|[|i]]; [exact wf_demo|exact wf_other|]. split; [constructor|]. intros e [].
Qed.
Lemma two_apart i j n : In n (node_ids (c_dag (two i))) -> In n (node_ids (c_dag (two j))) -> i = j.
Proof.
  destruct i as [|[|i]]; destruct j as [|[|j]]; try reflexivity; vm_compute; intuition congruence.
Qed.

(** Execution 0 of the demo set and execution 1 of another one, in turn: 0 begins gen, 1
    begins other, gen is recorded, 1 ends and is destroyed, and 0 goes on to its end. *)
Definition until_mixed : list (nat * label) :=
  map (pair 0) [LTick; LCtl; LTick; LCtl; LCtl; LCtl; LBegin 1] ++
  map (pair 1) [LTick; LCtl; LTick; LCtl; LCtl; LCtl; LBegin 16] ++
  map (pair 0) [LEnd 1 ok; LTick; LCtl; LCtl].
Definition world_of (ls : list (nat * label)) : world :=
  match run_world two (world_init 0) ls with Some w => w | None => world_init 0 end.
Definition mixed : list (nat * label) :=
  until_mixed ++ map (pair 1) (drive other all_ok 30 (world_of until_mixed 1) ++ [LDestroy; LCtl]) ++
  map (pair 0) (drive (demo 1) lib_fails 60 (world_of until_mixed 0)).
Definition early : list (nat * label) :=
  until_mixed ++ map (pair 1) [LDestroy; LEnd 16 ok; LCtl; LCtl] ++
  map (pair 0) (drive (demo 1) lib_fails 60 (world_of until_mixed 0)).
Lemma world_of_run ls :
  match run_world two (world_init 0) ls with Some _ => true | None => false end = true ->
  run_world two (world_init 0) ls = Some (world_of ls).
Proof. unfold world_of. destruct (run_world two (world_init 0) ls); [reflexivity|discriminate]. Qed.
Lemma mixed_in i l : In (i, l) mixed -> In i [0; 1].
Proof.
  assert (H : forallb (fun a => mem (fst a) [0; 1]) mixed = true) by (vm_compute; reflexivity).
  rewrite forallb_forall in H. intros Hi. apply mem_In. exact (H _ Hi).
Qed.
Lemma labels_none i ls : (forall k l, In (k, l) ls -> k <> i) -> labels_of i ls = [].
Proof.
  unfold labels_of. induction ls as [|[k l] ls IH]; intros H; [reflexivity|]. cbn [filter fst].
  rewrite (proj2 (Nat.eqb_neq k i) (H k l (or_introl eq_refl))). apply IH. intros k' l' Hl. exact (H k' l' (or_intror Hl)).
Qed.
Lemma untouched cs ls w i : run_world cs (world_init 0) ls = Some w -> (forall k l, In (k, l) ls -> k <> i) -> w i = init 0.
Proof.
  intros E H. destruct (world_alone cs 0 ls w i E) as [X _]. rewrite (labels_none i ls H) in X. cbn in X. injection X as X. auto.
Qed.
Lemma mixed_tidy : ended_before_destroyed (world_of mixed).
Proof.
  assert (E : run_world two (world_init 0) mixed = Some (world_of mixed)) by (apply world_of_run; vm_compute; reflexivity).
  intros i H. destruct i as [|[|i]].
  - exfalso. assert (X : existsb (fun e => match e with EDestroyed => true | _ => false end) (trace (world_of mixed 0)) = false)
      by (vm_compute; reflexivity).
    assert (Y : existsb (fun e => match e with EDestroyed => true | _ => false end) (trace (world_of mixed 0)) = true)
      by (apply existsb_exists; eexists; split; [exact H|reflexivity]).
    rewrite X in Y. discriminate Y.
  - left. eexists. find_in.
  - exfalso. assert (N : forall k l, In (k, l) mixed -> k <> S (S i))
      by (intros k l Hl ->; apply mixed_in in Hl; destruct Hl as [Hl|[Hl|[]]]; discriminate Hl).
    rewrite (untouched two mixed (world_of mixed) (S (S i)) E N) in H. exact H.
Qed.
Example C87_case :
  (forall i, wf_dag (c_dag (two i))) /\ (forall i l, In (i, l) mixed -> In i [0; 1]) /\
  (forall i j n, In n (node_ids (c_dag (two i))) -> In n (node_ids (c_dag (two j))) -> i = j) /\
  run_world two (world_init 0) mixed = Some (world_of mixed) /\ ended_before_destroyed (world_of mixed) /\
  In EDestroyed (trace (world_of mixed 1)) /\ (exists er, result (world_of mixed 0) = RRecord er) /\
  exists v out, watch_world [0; 1] two (world_init 0) (print_visitor false) mixed = WOk v out /\
    map r_name (end_lines (printed_for 0 out)) = ["//gen"; "//src/lib"; "//app"; "//doc"; "//src/test"; "//src/lint"] /\
    map r_name (end_lines (printed_for 1 out)) = ["//other"].
Proof.
  split; [exact wf_two|]. split; [exact mixed_in|].
  split; [exact two_apart|]. split; [apply world_of_run; vm_compute; reflexivity|]. split; [exact mixed_tidy|]. split; [find_in|].
  split; [eexists; vm_compute; reflexivity|].
  eexists _, _. split; [vm_compute; reflexivity|]. split; vm_compute; reflexivity.
Qed.

(** A status line can join the counter of one execution and a task of the other: here a line
    of execution 0, whose 6 tasks have other names, about task other.  And the condition is
    needed: if 1 is destroyed while other is being executed, then the next record of 0 makes
    the visitor read the deleted node. *)
Theorem C87_limits :
  (exists v out er, watch_world [0; 1] two (world_init 0) (print_visitor false) mixed = WOk v out /\
     In (0, PStart er "//other") out /\ er_total er = 6 /\
     forall n, In n (node_ids (c_dag (two 0))) -> node_name (c_dag (two 0)) n <> "//other") /\
  (exists ls w, run_world two (world_init 0) ls = Some w /\ In EDestroyed (trace (w 1)) /\
     (exists er, result (w 0) = RRecord er) /\
     watch_world [0; 1] two (world_init 0) (print_visitor false) ls = WDangling 16).
Proof.
  split.
  - eexists _, _, _. split; [vm_compute; reflexivity|]. split; [do 3 right; left; reflexivity|]. split; [reflexivity|].
    assert (X : forallb (fun n => negb (String.eqb (node_name (c_dag (two 0)) n) "//other")) (node_ids (c_dag (two 0))) = true)
      by (vm_compute; reflexivity).
    rewrite forallb_forall in X. intros n H E. specialize (X n H). rewrite E in X. discriminate X.
  - exists early, (world_of early). split; [apply world_of_run; vm_compute; reflexivity|]. split; [find_in|].
    split; [eexists; vm_compute; reflexivity|]. vm_compute. reflexivity.
Qed.
Print Assumptions C87_limits.
