(** Executions one after the other: C96. *)
From Coq Require Import String Lia.
From Verif Require Import Model.Common Model.Records Model.Jobs Model.TaskSet Model.Dag
     Model.Sched Model.Exec Model.World Spec.Graph Spec.Trace Spec.World Spec.Races Spec.WorldRaces
     Properties.Demo Proofs.DemoFacts Proofs.WorldFacts Proofs.WorldDemo Proofs.WorldRaceFacts Properties.Worlds Properties.Races.
Open Scope string_scope.
Open Scope nat_scope.
Open Scope list_scope.

(** * C96 An execution sees what the executions before it did *)

(** Whatever happens in one execution (calls of jobs and of the visitor) happens before whatever
    happens later in another one. *)
Theorem C96_ordered : forall cs z ls w p q i j e e',
  (forall i, wf_dag (c_dag (cs i))) -> run_world cs (world_init z) ls = Some w -> one_at_a_time cs z ls ->
  i <> j -> p < q -> happens cs z ls p i e -> happens cs z ls q j e' -> e <> EDestroyed -> e' <> EDestroyed ->
  world_before cs z ls one_thread p q.
Proof.
  intros cs z ls w p q i j e e' Hwf Hrun Hone. exact (successive cs Hwf z ls w Hrun Hone p q i j e e').
Qed.
Print Assumptions C96_ordered.

(** The whole program has no data race if each of its executions is disciplined (C94); the
    executions may use the same memory, among it the same job objects, in any way. *)
Theorem C96_no_data_race : forall (loc : Type) (touches : nat -> nid -> loc -> access -> Prop) cs z ls w p q,
  (forall i, wf_dag (c_dag (cs i))) -> run_world cs (world_init z) ls = Some w -> one_at_a_time cs z ls ->
  (forall i, disciplined loc (touches i) (cs i)) -> ~ world_race cs z ls one_thread loc touches p q.
Proof.
  intros loc touches cs z ls w p q Hwf Hrun Hone. exact (world_no_race cs Hwf z ls w Hrun Hone loc touches p q).
Qed.
Print Assumptions C96_no_data_race.

(** Two executions of one graph, the second after the first; the jobs of task 1. *)
Definition both : list (nat * label) := second 2 [LTick; LCtl; LTick; LCtl; LBegin 1].
Definition twice : nat -> config := fun _ => demo 2.
Definition begin_step (i : nat) (n : nid) (a : nat * label) : bool :=
  match snd a with LBegin m => (fst a =? i) && (m =? n) | _ => false end.
Fixpoint find_pos (f : nat * label -> bool) (ls : list (nat * label)) : nat :=
  match ls with [] => 0 | a :: r => if f a then 0 else S (find_pos f r) end.

Definition runs_b (cs : nat -> config) (ls : list (nat * label)) : bool :=
  match run_world cs (world_init 0) ls with Some _ => true | None => false end.
Lemma happens_check cs ls p i l e : nth_error ls p = Some (i, l) ->
  runs_b cs (firstn p ls) = true -> runs_b cs (firstn (S p) ls) = true ->
  trace (world_go cs (firstn (S p) ls) i) = trace (world_go cs (firstn p ls) i) ++ [e] -> happens cs 0 ls p i e.
Proof.
  intros Hl H1 H2 E. exists l, (world_go cs (firstn p ls)), (world_go cs (firstn (S p) ls)), [e].
  split; [exact Hl|]. split; [exact (world_go_run _ _ H1)|]. split; [exact (world_go_run _ _ H2)|].
  split; [exact E|left; reflexivity].
Qed.
Lemma race_check cs ls p q n : (forall i, wf_dag (c_dag (cs i))) -> runs_b cs ls = true -> p < q ->
  happens cs 0 ls p 0 (EBegin n) -> happens cs 0 ls q 1 (EBegin n) ->
  nth_error ls p = Some (0, LBegin n) -> c_threads (cs 0) <> 0 ->
  forallb (fun a => match step_thread cs one_thread a with Some (JobThread 0 m) => negb (m =? n) | _ => true end) (skipn (S p) ls) = true ->
  world_race cs 0 ls one_thread unit (fun _ _ _ _ => True) p q.
Proof.
  intros Hwf Hr Hpq HP HQ Hn Ht A.
  exists 0, 1, (EBegin n), (EBegin n), tt, Writes, Writes. split; [exact HP|]. split; [exact HQ|].
  split; [discriminate|]. split; [discriminate|].
  split; [right; exists n; split; [reflexivity|exact I]|]. split; [right; exists n; split; [reflexivity|exact I]|].
  split; [left; reflexivity|]. split; [lia|]. split.
  - apply (still_running_world cs one_thread 0 ls _ (world_go_run _ _ Hr) p 0 n); [exact Hn|exact Ht|].
    intros r Hlt a Ha Ta. assert (Hl : r < List.length ls) by (apply nth_error_Some; congruence).
    rewrite forallb_forall in A. assert (HI : In a (skipn (S p) ls)).
    { rewrite <- (firstn_skipn (S p) ls) in Ha. rewrite nth_error_app2 in Ha.
      - eapply nth_error_In. exact Ha.
      - rewrite firstn_length. lia. }
    specialize (A a HI). rewrite Ta, Nat.eqb_refl in A. discriminate.
  - intros H. apply hb_forward in H. lia.
Qed.
Definition p0 : nat := Eval vm_compute in find_pos (begin_step 0 1) both.
Definition q0 : nat := Eval vm_compute in find_pos (begin_step 1 1) both.

Example C96_case :
  (forall i, wf_dag (c_dag (twice i))) /\ run_world twice (world_init 0) both = Some (world_go twice both) /\
  one_at_a_time twice 0 both /\ p0 < q0 /\
  happens twice 0 both p0 0 (EBegin 1) /\ happens twice 0 both q0 1 (EBegin 1).
Proof.
  split; [intros i; exact wf_demo|]. split; [apply (world_go_run twice both); vm_compute; reflexivity|].
  split; [apply (one_at_a_time_b twice 2); vm_compute; reflexivity|].
  split; [apply Nat.ltb_lt; reflexivity|].
  split; [apply happens_check with (l := LBegin 1)|apply happens_check with (l := LBegin 1)]; vm_compute; reflexivity.
Qed.

(** Executions in progress at the same time race, on the job object if on nothing else. *)
Definition mixed : list (nat * label) := upto 0 11 ++ upto 1 11.
Definition p1 : nat := Eval vm_compute in find_pos (begin_step 0 2) mixed.
Definition q1 : nat := Eval vm_compute in find_pos (begin_step 1 2) mixed.
Theorem C96_needs_one_at_a_time : exists cs ls w p q n,
  (forall i, wf_dag (c_dag (cs i))) /\ (forall i, cs i = cs 0) /\ run_world cs (world_init 0) ls = Some w /\
  happens cs 0 ls p 0 (EBegin n) /\ happens cs 0 ls q 1 (EBegin n) /\
  world_race cs 0 ls one_thread unit (fun _ _ _ _ => True) p q.
Proof.
  exists (fun _ => demo 1), mixed, (world_go (fun _ => demo 1) mixed), p1, q1, 2.
  split; [intros i; exact wf_demo|]. split; [reflexivity|].
  split; [apply (world_go_run (fun _ => demo 1) mixed); vm_compute; reflexivity|].
  assert (HP : happens (fun _ => demo 1) 0 mixed p1 0 (EBegin 2)) by (apply happens_check with (l := LBegin 2); vm_compute; reflexivity).
  assert (HQ : happens (fun _ => demo 1) 0 mixed q1 1 (EBegin 2)) by (apply happens_check with (l := LBegin 2); vm_compute; reflexivity).
  split; [exact HP|]. split; [exact HQ|].
  apply race_check with (n := 2);
    [intros i; exact wf_demo|vm_compute; reflexivity|apply Nat.ltb_lt; reflexivity|exact HP|exact HQ|vm_compute; reflexivity|discriminate|vm_compute; reflexivity].
Qed.
Print Assumptions C96_needs_one_at_a_time.

(** Two executions of the graph of C94, in which tasks 1 and 2 write one location. *)
Example C96_case_memory : forall i, disciplined nat ((fun _ => own_data) i) ((fun _ : nat => rivals) i).
Proof. 
  intros i m n l k k' Hmn H1 H2 _. right; right. exists 7. unfold own_data, nid in *.
  assert (G : m = 1 /\ n = 2 \/ m = 2 /\ n = 1) by (destruct (Nat.eqb_spec m 2), (Nat.eqb_spec n 2); lia).
  destruct G as [[-> ->]|[-> ->]]; split; left; reflexivity.
 Qed.
