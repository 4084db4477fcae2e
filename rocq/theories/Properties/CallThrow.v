(** Running out of memory in for_each_task and the bulk helpers: C113. *)
From Coq Require Import String Relations.
From Verif Require Import Model.Common Model.TaskSet Model.Dag Model.Sched Model.Exec Model.CallThrow
     Spec.Graph Spec.Tasks Spec.Redundant Spec.Calls Spec.CallThrow
     Properties.Demo Proofs.CallThrowFacts.
Open Scope string_scope.
Open Scope nat_scope.
Open Scope list_scope.

(** * C113 A task set is in order after an exception *)

(** for_each_task: the function is called for the tasks one after another, in the usual order;
    an exception it throws, or of an allocation, ends the visit at once, and is passed on. *)
Theorem C113_for_each : forall A (alloc : A -> option A) f ts a,
  exists l1 l2, for_each_task ts = l1 ++ l2 /\
  match x_for_each_task alloc f ts a with
  | Returned a' => l2 = [] /\ called alloc f l1 a a'
  | Threw a' => (called alloc f l1 a a' /\ alloc a' = None) \/
                exists n t l3 a1, l2 = (n, t) :: l3 /\ called alloc f l1 a a1 /\ f n t a1 = Threw a'
  end.
Proof. exact @visit_all. Qed.
Print Assumptions C113_for_each.

(** A helper that throws was refused memory.  It leaves every task as it was, except that some of
    the entries it was to append have been appended. *)
Theorem C113_left : forall fails st c i st', try_call fails st c = Threw (i, st') ->
  fails i = true /\ st_dom st' = st_dom st /\
  forall a, let x := st_get st a in let y := st_get st' a in
  t_has_job y = t_has_job x /\ t_resources y = t_resources x /\ t_hidden y = t_hidden x /\
  (exists d, t_depends_on y = t_depends_on x ++ d /\ Forall (says_dep c a) d) /\
  (exists d, t_run_after y = t_run_after x ++ d /\ Forall (says_after c a) d) /\
  (exists d, t_invalidated_by y = t_invalidated_by x ++ d /\ Forall (says_inval c a) d).
Proof. exact threw_left. Qed.
Print Assumptions C113_left.

(** One that returns has done all of it, and was never refused memory. *)
Theorem C113_complete : forall fails st c i st', try_call fails st c = Returned (i, st') ->
  st' = do_call st c /\ forall j, j < i -> fails j = false.
Proof. exact returned_all. Qed.
Print Assumptions C113_complete.

(** With enough memory it returns. *)
Theorem C113_enough : forall fails st c, (forall i, fails i = false) -> exists i, try_call fails st c = Returned (i, do_call st c).
Proof. exact enough_memory. Qed.
Print Assumptions C113_enough.

(** After any number of calls that threw, the call that succeeds leaves the same declarations as
    if it had been the first one, though some may be listed more than once (see C104). *)
Theorem C113_again : forall c st st', tried_in_vain c st st' -> same_lists (do_call st' c) (do_call st c).
Proof. exact tried_again. Qed.
Print Assumptions C113_again.

(** Executions then mean the same (C104 says what follows from that). *)
Theorem C113_executions : forall cl st st' ts filt iv addr c1 c2, tried_in_vain cl st st' ->
  execution_of (do_call st' cl) ts filt iv addr c1 -> execution_of (do_call st cl) ts filt iv addr c2 ->
  c_threads c1 = c_threads c2 -> same_meaning c1 c2.
Proof. exact tried_executions. Qed.
Print Assumptions C113_executions.

(** A call that threw makes no cycle that the complete one would not make. *)
Theorem C113_cycle : forall c st st', tried_in_vain c st st' -> task_cyclic st' -> task_cyclic (do_call st c).
Proof. exact vain_cyclic. Qed.
Print Assumptions C113_cycle.

(** Everything is to depend on lint (6); memory is exhausted the sixth time it is needed: app and
    doc have the new dependency, gen and those in src do not.  The second attempt fails earlier. *)
Definition only (k i : nat) : bool := i =? k.
Definition half : store := match try_call (only 5) demo_store (ForEachAddDep demo_set 6) with Returned a | Threw a => snd a end.
Example C113_case :
  let c := ForEachAddDep demo_set 6 in
  try_call (only 5) demo_store c = Threw (5, half) /\
  map (fun t => (t, t_depends_on (st_get half t))) [1; 2; 3; 4; 5; 6] =
    [(1, []); (2, [1]); (3, [2; 6]); (4, [6]); (5, [3]); (6, [])] /\
  (exists st2, try_call (only 1) half c = Threw (1, st2) /\ tried_in_vain c demo_store st2 /\
     map (fun t => (t, t_depends_on (st_get (do_call st2 c) t))) [1; 2; 3; 4; 5; 6] =
       [(1, [6]); (2, [1; 6]); (3, [2; 6; 6]); (4, [6; 6]); (5, [3; 6]); (6, [])]) /\
  (exists i, try_call (only 50) demo_store c = Returned (i, do_call demo_store c)).
Proof.
  cbn zeta. assert (E : try_call (only 5) demo_store (ForEachAddDep demo_set 6) = Threw (5, half)) by (unfold half; reflexivity).
  split; [exact E|]. split; [reflexivity|]. split; [|eexists; reflexivity].
  exists half. assert (E2 : try_call (only 1) half (ForEachAddDep demo_set 6) = Threw (1, half)) by reflexivity.
  split; [exact E2|]. split; [|reflexivity]. eapply vain_more; [exact E|]. eapply vain_more; [exact E2|]. apply vain_none.
Qed.

(** A function that counts, and throws at lib. *)
Example C113_case_function :
  x_for_each_task (fun a => Some a) (fun n _ a => if String.eqb n "//src/lib" then Threw a else Returned (n :: a)) demo_set [] =
  Threw ["//gen"; "//doc"; "//app"].
Proof. reflexivity. Qed.
