(** Programs that call the bulk helpers any number of times, in any order (C20, C60, C104). *)
From Coq Require Import String Relations.
From Verif Require Import Model.Common Model.TaskSet Spec.Graph Spec.Tasks Spec.Redundant Spec.Calls
     Properties.Demo Proofs.CallFacts.
Open Scope string_scope.
Open Scope nat_scope.
Open Scope list_scope.

(** * C20 What any sequence of calls has said is what is declared, and nothing else *)
Theorem C20_calls : forall l st a,
  let x := st_get st a in let y := st_get (fold_left do_call l st) a in
  t_has_job y = t_has_job x /\ t_resources y = t_resources x /\ t_hidden y = t_hidden x /\
  (forall b, In b (t_depends_on y) <-> In b (t_depends_on x) \/ exists c, In c l /\ says_dep c a b) /\
  (forall b, In b (t_run_after y) <-> In b (t_run_after x) \/ exists c, In c l /\ says_after c a b) /\
  (forall b, In b (t_invalidated_by y) <-> In b (t_invalidated_by x) \/ exists c, In c l /\ says_inval c a b).
Proof. exact many_calls. Qed.
Print Assumptions C20_calls.

(** * C60 When a sequence of calls makes the set impossible to execute *)
Theorem C60_calls : forall st l,
  task_cyclic (fold_left do_call l st) <->
  exists t, clos_trans tid (fun a b => task_after st a b \/
                              exists c, In c l /\ (says_dep c a b \/ says_after c a b)) t t.
Proof. exact calls_cycle. Qed.
Print Assumptions C60_calls.

(** * C104 The order and the number of the calls do not matter *)
Theorem C104_calls_any_order : forall st l1 l2,
  (forall c, In c l1 <-> In c l2) -> same_lists (fold_left do_call l1 st) (fold_left do_call l2 st).
Proof. exact calls_any_order. Qed.
Print Assumptions C104_calls_any_order.

(** Everything depends on lint (6), and doc (4) runs after everything in src. *)
Definition src_set : task_set := TaskSet [("lib", 2); ("lint", 6); ("test", 5)] [].
Example C20_case_calls :
  let c1 := ForEachAddDep demo_set 6 in
  let c2 := RunAfterAllOf 4 src_set in
  (forall c, In c [c1; c2] <-> In c [c2; c1; c2]) /\
  t_depends_on (st_get (fold_left do_call [c1; c2] demo_store) 2) = [1; 6] /\
  t_run_after (st_get (fold_left do_call [c1; c2] demo_store) 4) <>
  t_run_after (st_get (fold_left do_call [c2; c1; c2] demo_store) 4) /\
  says_dep c1 2 6 /\ ~ says_dep c1 6 6 /\ says_after c2 4 5.
Proof.
  cbn zeta. split; [intros c; cbn; tauto|]. split; [reflexivity|]. split; [vm_compute; discriminate|].
  split; [|split].
  - split; [discriminate|]. split; [|reflexivity]. exists ["src"; "lib"]. eapply holds_below; [left; reflexivity|].
    apply holds_here. left; reflexivity.
  - intros [H _]. apply H. reflexivity.
  - split; [discriminate|]. split; [reflexivity|]. exists ["test"]. apply holds_here. right; right; left; reflexivity.
Qed.

(** gen (1) is to run after everything else, lib (2) too, which depends on it: a cycle. *)
Example C60_case_calls :
  task_cyclic (fold_left do_call [RunAfterAllOf 1 demo_set] demo_store).
Proof.
  exists 1. apply t_trans with 2; apply t_step; [right|left]; vm_compute; tauto.
Qed.
