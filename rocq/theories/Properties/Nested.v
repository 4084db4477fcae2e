(** Jobs that execute task sets themselves: C97. *)
From Coq Require Import String Lia Relation_Operators.
From Verif Require Import Model.Common Model.Records Model.Jobs Model.TaskSet Model.Dag
     Model.Sched Model.Exec Model.World Spec.Graph Spec.Trace Spec.World Spec.Races Spec.Nested Spec.WorldRaces
     Properties.Demo Proofs.DemoFacts Proofs.WorldFacts Proofs.WorldDemo Proofs.WorldRaceFacts
     Proofs.NestedFacts Proofs.NestedDemo Properties.Worlds Properties.Races Properties.Successive.
Open Scope string_scope.
Open Scope nat_scope.
Open Scope list_scope.

(** * C97 Jobs that execute task sets *)

(** What happens in an execution inside a job happens after the job began and before it ended. *)
Theorem C97_inside : forall cs owner home z ls w i n j q e,
  (forall i, wf_dag (c_dag (cs i))) -> run_world cs (world_init z) ls = Some w ->
  homes cs owner home -> nested cs owner z ls ->
  inside owner i n j -> happens cs z ls q j e -> e <> EDestroyed ->
  (exists b, happens cs z ls b i (EBegin n) /\ world_before cs z ls home b q) /\
  (forall d o, happens cs z ls d i (EEnd n o) -> world_before cs z ls home q d).
Proof.
  intros cs owner home z ls w i n j q e Hwf Hrun Hh Hn. exact (nested_inside cs Hwf owner home z ls w Hrun Hh Hn i n j q e).
Qed.
Print Assumptions C97_inside.

(** So the tasks that run after the task of this job, and what is executed inside them, see it. *)
Theorem C97_visible : forall cs owner home z ls w i n j q e a k q' e',
  (forall i, wf_dag (c_dag (cs i))) -> run_world cs (world_init z) ls = Some w ->
  homes cs owner home -> nested cs owner z ls ->
  inside owner i n j -> happens cs z ls q j e -> e <> EDestroyed ->
  clos_trans nid (runs_after (c_dag (cs i))) a n -> happens cs z ls q' k e' -> e' <> EDestroyed ->
  (k = i /\ concerns e' a) \/ inside owner i a k ->
  world_before cs z ls home q q'.
Proof.
  intros cs owner home z ls w i n j q e a k q' e' Hwf Hrun Hh Hn.
  exact (nested_visible cs Hwf owner home z ls w Hrun Hh Hn i n j q e a k q' e').
Qed.
Print Assumptions C97_visible.

(** No data race in the whole program, if what is used inside a job counts as used by it and
    each execution is disciplined (C94). *)
Theorem C97_no_data_race : forall (loc : Type) (touches : nat -> nid -> loc -> access -> Prop) cs owner home z ls w p q,
  (forall i, wf_dag (c_dag (cs i))) -> run_world cs (world_init z) ls = Some w ->
  homes cs owner home -> nested cs owner z ls ->
  enclosed owner loc touches -> (forall i, disciplined loc (touches i) (cs i)) ->
  ~ nested_race cs owner loc touches home z ls p q.
Proof.
  intros loc touches cs owner home z ls w p q Hwf Hrun Hh Hn He Hd.
  exact (nested_no_race cs Hwf owner home z ls w Hrun Hh Hn loc touches He Hd p q).
Qed.
Print Assumptions C97_no_data_race.

(** The job of gen, of an execution with two threads, executes the same graph on two threads:
    lib of the outer execution follows lib of the inner one. *)
Definition gen_owns (j : nat) : option (nat * nid) := if j =? 1 then Some (0, 1) else None.
Definition gen_home (j : nat) : world_thread := if j =? 1 then JobThread 0 1 else TheClient.
Fixpoint upto_begin (n : nid) (ls : list label) : list label * list label :=
  match ls with
  | [] => ([], [])
  | LBegin m :: r => if m =? n then ([LBegin m], r) else let (a, b) := upto_begin n r in (LBegin m :: a, b)
  | l :: r => let (a, b) := upto_begin n r in (l :: a, b)
  end.
Definition around (inner : list label) : list (nat * label) :=
  map (pair 0) (fst (upto_begin 1 (demo_run 2 all_ok))) ++ map (pair 1) inner ++ map (pair 0) (snd (upto_begin 1 (demo_run 2 all_ok))).
Definition gen_within : list (nat * label) := around (demo_run 2 all_ok).
Definition p2 : nat := Eval vm_compute in find_pos (begin_step 1 2) gen_within.
Definition q2 : nat := Eval vm_compute in find_pos (begin_step 0 2) gen_within.

Lemma gen_homes : homes twice gen_owns gen_home.
Proof. intros [|[|j]]; cbn; [reflexivity| |reflexivity]. split; [lia|reflexivity]. Qed.
Lemma gen_owner_bound j : 2 <= j -> gen_owns j = None.
Proof. intros H. unfold gen_owns. destruct (Nat.eqb_spec j 1); [lia|reflexivity]. Qed.

Example C97_case :
  (forall i, wf_dag (c_dag (twice i))) /\ run_world twice (world_init 0) gen_within = Some (world_go twice gen_within) /\
  homes twice gen_owns gen_home /\ nested twice gen_owns 0 gen_within /\
  inside gen_owns 0 1 1 /\ happens twice 0 gen_within p2 1 (EBegin 2) /\
  clos_trans nid (runs_after (c_dag (twice 0))) 2 1 /\ happens twice 0 gen_within q2 0 (EBegin 2) /\
  done (world_go twice gen_within 0) = true /\ done (world_go twice gen_within 1) = true.
Proof.
  split; [intros i; exact wf_demo|]. split; [apply (world_go_run twice gen_within); vm_compute; reflexivity|].
  split; [exact gen_homes|]. split.
  { split; [apply (made_b_sound twice gen_owns 2); vm_compute; reflexivity|].
    split; [apply (waited_b_sound twice gen_owns 2 gen_owner_bound); vm_compute; reflexivity|].
    apply (turn_b_sound twice gen_owns 2); vm_compute; reflexivity. }
  split; [apply inside_job; reflexivity|].
  split; [apply happens_check with (l := LBegin 2); vm_compute; reflexivity|].
  split.
  { apply t_step. find_in. }
  split; [apply happens_check with (l := LBegin 2); vm_compute; reflexivity|].
  split; vm_compute; reflexivity.
Qed.

(** A job that returns while the execution it made is in progress: lib of the outer execution
    does not follow what the inner one does. *)
Definition gen_leaves : list (nat * label) := around (fst (upto_begin 1 (demo_run 2 all_ok))).
Definition p3 : nat := Eval vm_compute in find_pos (begin_step 1 1) gen_leaves.
Definition q3 : nat := Eval vm_compute in find_pos (begin_step 0 2) gen_leaves.
Theorem C97_needs_waiting : exists cs owner home ls w i n j q q' m a,
  (forall i, wf_dag (c_dag (cs i))) /\ run_world cs (world_init 0) ls = Some w /\
  homes cs owner home /\ made_inside cs owner 0 ls /\ in_turn cs owner 0 ls /\
  inside owner i n j /\ happens cs 0 ls q j (EBegin m) /\
  clos_trans nid (runs_after (c_dag (cs i))) a n /\ happens cs 0 ls q' i (EBegin a) /\ q < q' /\
  ~ world_before cs 0 ls home q q'.
Proof.
  exists twice, gen_owns, gen_home, gen_leaves, (world_go twice gen_leaves), 0, 1, 1, p3, q3, 1, 2.
  assert (Hr : run_world twice (world_init 0) gen_leaves = Some (world_go twice gen_leaves)) by (apply (world_go_run twice gen_leaves); vm_compute; reflexivity).
  split; [intros i; exact wf_demo|]. split; [exact Hr|].
  split; [exact gen_homes|]. split; [apply (made_b_sound twice gen_owns 2); vm_compute; reflexivity|].
  split; [apply (turn_b_sound twice gen_owns 2); vm_compute; reflexivity|].
  split; [apply inside_job; reflexivity|].
  split; [apply happens_check with (l := LBegin 1); vm_compute; reflexivity|].
  split.
  { apply t_step. find_in. }
  split; [apply happens_check with (l := LBegin 2); vm_compute; reflexivity|].
  split; [apply Nat.ltb_lt; reflexivity|].
  intros H. revert H. apply (still_running_world twice gen_home 0 gen_leaves _ Hr p3 1 1); [vm_compute; reflexivity|discriminate|].
  intros r Hlt a Ha Ta.
  assert (A : forallb (fun a => match step_thread twice gen_home a with Some (JobThread 1 1) => false | _ => true end) (skipn (S p3) gen_leaves) = true)
    by (vm_compute; reflexivity).
  rewrite forallb_forall in A. assert (HI : In a (skipn (S p3) gen_leaves)).
  { rewrite <- (firstn_skipn (S p3) gen_leaves) in Ha. rewrite nth_error_app2 in Ha.
    - eapply nth_error_In. exact Ha.
    - rewrite firstn_length. lia. }
  specialize (A a HI). rewrite Ta in A. exact (Bool.diff_false_true A).
Qed.
Print Assumptions C97_needs_waiting.

(** Memory: the job of gen writes location 1, what is inside it writes nothing else. *)
Definition gen_touches (j : nat) (n : nid) (l : nat) (k : access) : Prop :=
  if j =? 0 then n = l else l = 1 /\ n = 1.
Example C97_case_memory : enclosed gen_owns nat gen_touches /\ forall i, disciplined nat (gen_touches i) (twice i).
Proof.
  split.
  - intros j i n m l k Ho T. unfold gen_owns in Ho. destruct (Nat.eqb_spec j 1) as [->|]; [|discriminate].
    inversion Ho; subst. cbn in T. destruct T as [-> _]. reflexivity.
  - intros i m n l k k' Hmn T1 T2 _. exfalso. unfold gen_touches in *. destruct (i =? 0); [congruence|]. destruct T1, T2. congruence.
Qed.
