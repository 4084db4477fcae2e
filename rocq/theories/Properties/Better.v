(** Repaired jobs and further demands: C111. *)
From Coq Require Import String Relations Permutation Sorted Lia.
From Verif Require Import Model.Common Model.Records Model.Jobs Model.TaskSet Model.Dag Model.Sched Model.Exec Model.ExecSet
     Spec.Graph Spec.Trace Spec.Tasks Spec.Better
     Properties.Demo Properties.TaskSets Proofs.DemoFacts Proofs.TaskFacts Proofs.BetterFacts.
Open Scope string_scope.
Open Scope nat_scope.
Open Scope list_scope.

(** * C111 Repairing jobs, or demanding more, harms nothing *)

(** Two executions of the same tasks.  Every job that succeeded in the first one succeeds
    in the second one, if it is executed there at all. *)
Theorem C111_repair : forall st ts filt iv addr1 addr2 c1 c2 z1 z2 s1 s2,
  execution_of st ts filt iv addr1 c1 -> execution_of st ts filt iv addr2 c2 ->
  reachable c1 z1 s1 -> reachable c2 z2 s2 ->
  (forall t o1 o2, selected st ts filt t -> In (EEnd (addr1 t) o1) (trace s1) -> In (EEnd (addr2 t) o2) (trace s2) ->
     job_code o1 = 0%Z -> job_code o2 = 0%Z) ->
  forall r1 r2, In r1 (records (trace s1)) -> In r2 (records (trace s2)) -> r_task r1 = r_task r2 ->
  improves (r_status r1) (r_status r2).
Proof.
  intros st ts filt iv addr1 addr2 c1 c2 z1 z2 s1 s2 X1 X2 R1 R2 H.
  exact (repaired st ts filt addr1 addr2 c1 c2 iv iv z1 z2 s1 s2 X1 X2 R1 R2 (fun _ => eq_refl) H).
Qed.
Print Assumptions C111_repair.

(** A task whose status changed has a repaired job behind it, or its own was repaired. *)
Theorem C111_why : forall st ts filt iv addr1 addr2 c1 c2 z1 z2 s1 s2,
  execution_of st ts filt iv addr1 c1 -> execution_of st ts filt iv addr2 c2 ->
  reachable c1 z1 s1 -> reachable c2 z2 s2 ->
  (forall t o1 o2, selected st ts filt t -> In (EEnd (addr1 t) o1) (trace s1) -> In (EEnd (addr2 t) o2) (trace s2) ->
     job_code o1 = 0%Z -> job_code o2 = 0%Z) ->
  forall r1 r2, In r1 (records (trace s1)) -> In r2 (records (trace s2)) -> r_task r1 = r_task r2 ->
  r_status r1 <> r_status r2 ->
  exists b1 b2, In b1 (records (trace s1)) /\ In b2 (records (trace s2)) /\ r_task b1 = r_task b2 /\
    clos_refl_trans tid (depends_on st) (r_task r1) (r_task b1) /\ r_status b1 = FAIL /\ r_status b2 = OK.
Proof.
  intros st ts filt iv addr1 addr2 c1 c2 z1 z2 s1 s2 X1 X2 R1 R2 H.
  exact (repaired_why st ts filt addr1 addr2 c1 c2 iv iv z1 z2 s1 s2 X1 X2 R1 R2 (fun _ => eq_refl) H).
Qed.
Print Assumptions C111_why.

(** If at least the same jobs demand to be executed, and nothing fails, everything that was
    executed in the first execution is executed in the second one, successfully. *)
Theorem C111_demands : forall st ts filt iv1 iv2 addr1 addr2 c1 c2 z1 z2 s1 s2,
  execution_of st ts filt iv1 addr1 c1 -> execution_of st ts filt iv2 addr2 c2 ->
  reachable c1 z1 s1 -> reachable c2 z2 s2 ->
  (forall t log, selected st ts filt t -> iv1 t = IvRet true log -> exists log', iv2 t = IvRet true log') ->
  (forall r, In r (records (trace s2)) -> r_status r <> FAIL) ->
  forall r1 r2, In r1 (records (trace s1)) -> In r2 (records (trace s2)) -> r_task r1 = r_task r2 ->
  r_status r1 = OK \/ r_status r1 = FAIL -> r_status r2 = OK.
Proof.
  intros st ts filt iv1 iv2 addr1 addr2 c1 c2 z1 z2 s1 s2 X1 X2 R1 R2.
  exact (more_demands st ts filt addr1 addr2 c1 c2 iv1 iv2 z1 z2 s1 s2 X1 X2 R1 R2).
Qed.
Print Assumptions C111_demands.

(** The demo: lib fails in the first execution, in the second one it is repaired. *)
Definition ends_as (o : nid -> job_outcome) (e : event) : Prop :=
  match e with EEnd n x => x = o n | _ => True end.
Lemma ended_as o tr n x : Forall (ends_as o) tr -> In (EEnd n x) tr -> x = o n.
Proof. intros F H. exact (proj1 (Forall_forall _ _) F _ H). Qed.
Ltac ends := vm_compute; repeat (constructor; [first [exact I|reflexivity]|]); constructor.

Lemma ends_fail : Forall (ends_as lib_fails) (trace (set_end lib_fails)).
Proof. ends. Qed.
Lemma ends_ok : Forall (ends_as all_ok) (trace (set_end all_ok)).
Proof. ends. Qed.

Example C111_case :
  execution_of demo_store demo_set "" demo_inval (fun t => t) set_demo /\
  reachable set_demo 0 (set_end lib_fails) /\ reachable set_demo 0 (set_end all_ok) /\
  (forall t o1 o2, selected demo_store demo_set "" t -> In (EEnd t o1) (trace (set_end lib_fails)) ->
     In (EEnd t o2) (trace (set_end all_ok)) -> job_code o1 = 0%Z -> job_code o2 = 0%Z) /\
  map (fun r => (r_task r, r_status r)) (records (trace (set_end lib_fails))) =
    [(1, OK); (2, FAIL); (3, DEPF); (4, SKIP); (5, DEPF); (6, OK)] /\
  exists l, Permutation l [(1, OK); (2, OK); (3, OK); (4, SKIP); (5, OK); (6, OK)] /\
    map (fun r => (r_task r, r_status r)) (records (trace (set_end all_ok))) = l.
Proof.
  split; [exact exec_set_demo|]. split; [exact reach_set_fail|]. split; [exact reach_set_end|].
  split. { intros t o1 o2 _ _ H _. rewrite (ended_as _ _ _ _ ends_ok H). reflexivity. }
  split; [vm_compute; reflexivity|].
  eexists. split; [|vm_compute; reflexivity].
  apply NoDup_Permutation; [repeat constructor; cbn; intuition discriminate|repeat constructor; cbn; intuition discriminate|].
  intros x. cbn. tauto.
Qed.

(** More demands: in the second execution doc (4) wants to be executed, too. *)
Definition doc_too (t : tid) : inval_answer := if t =? 4 then IvRet true "edited" else demo_inval t.
Definition set_more : config :=
  match exec_set demo_store demo_set 2 "" doc_too (fun t => t) (fun l => l) (fun l => l) with
  | Built c => c
  | _ => demo 2
  end.
Definition more_end : state := go set_more (drive set_more all_ok 60 (init 0)).
Example C111_case_demands :
  execution_of demo_store demo_set "" demo_inval (fun t => t) set_demo /\
  execution_of demo_store demo_set "" doc_too (fun t => t) set_more /\
  reachable set_demo 0 (set_end lib_fails) /\ reachable set_more 0 more_end /\
  (forall t log, selected demo_store demo_set "" t -> demo_inval t = IvRet true log -> exists log', doc_too t = IvRet true log') /\
  (forall r, In r (records (trace more_end)) -> r_status r <> FAIL) /\ List.length (records (trace more_end)) = 6.
Proof.
  split; [exact exec_set_demo|]. split.
  { exists 2, (fun l => l), (fun l => l).
    split; [intros l; apply Permutation_refl|]. split; [intros l; apply Permutation_refl|].
    split; [exact demo_ordered|]. split; [exact demo_owned|].
    split; [split; [auto|intros a _ []]|]. vm_compute. reflexivity. }
  split; [exact reach_set_fail|]. split; [apply go_reachable; vm_compute; reflexivity|].
  split. { intros t log _ H. unfold doc_too. destruct (t =? 4); eauto. }
  split; [|vm_compute; reflexivity]. apply Forall_forall.
  vm_compute. repeat (constructor; [discriminate|]). constructor.
Qed.

(** The number of failed tasks may well rise: 2 and 3 depend on 1, which fails at first.
    When it is repaired they are executed, and fail. *)
Definition fan_store : store :=
  Store [1; 2; 3] (fun t => if (t =? 2) || (t =? 3) then Task true [1] [] [] [] false else Task true [] [] [] [] false).
Definition fan_set : task_set := TaskSet [("a", 1); ("b", 2); ("c", 3)] [].
Definition fan : config :=
  match exec_set fan_store fan_set 2 "" demo_inval (fun t => t) (fun l => l) (fun l => l) with
  | Built c => c
  | _ => demo 2
  end.
Definition first_fails (n : nid) : job_outcome := if n =? 1 then failing else ok.
Definition first_repaired (n : nid) : job_outcome := if n =? 1 then ok else failing.
Definition fan_end (o : nid -> job_outcome) : state := go fan (drive fan o 60 (init 0)).
Theorem C111_uncovers : exists st ts filt iv addr c z s1 s2 er1 er2,
  execution_of st ts filt iv addr c /\ reachable c z s1 /\ reachable c z s2 /\
  (forall t o1 o2, selected st ts filt t -> In (EEnd (addr t) o1) (trace s1) -> In (EEnd (addr t) o2) (trace s2) ->
     job_code o1 = 0%Z -> job_code o2 = 0%Z) /\
  result s1 = RRecord er1 /\ result s2 = RRecord er2 /\
  stat_get (er_stats er1) FAIL < stat_get (er_stats er2) FAIL.
Proof.
  exists fan_store, fan_set, "", demo_inval, (fun t => t), fan, 0%Z, (fan_end first_fails), (fan_end first_repaired).
  eexists. eexists. split.
  { exists 2, (fun l => l), (fun l => l).
    split; [intros l; apply Permutation_refl|]. split; [intros l; apply Permutation_refl|].
    split; [constructor; [repeat constructor|constructor|intros name s []]|].
    split; [apply owned_visited; repeat constructor; cbn; intuition discriminate|].
    split; [split; [auto|intros a _ []]|]. vm_compute. reflexivity. }
  split; [apply go_reachable; vm_compute; reflexivity|]. split; [apply go_reachable; vm_compute; reflexivity|].
  split.
  { assert (F1 : Forall (fun e => match e with EEnd n _ => n = 1 | _ => True end) (trace (fan_end first_fails))) by ends.
    assert (F2 : Forall (ends_as first_repaired) (trace (fan_end first_repaired))) by ends.
    intros t o1 o2 _ H1 H2 _. rewrite (ended_as _ _ _ _ F2 H2).
    pose proof (proj1 (Forall_forall _ _) F1 _ H1) as E. cbv beta iota in E. rewrite E. reflexivity. }
  split; [vm_compute; reflexivity|]. split; [vm_compute; reflexivity|]. vm_compute. lia.
Qed.
Print Assumptions C111_uncovers.
