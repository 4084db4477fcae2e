(** Tasks that change while an execution exists: C98. *)
From Coq Require Import String.
From Verif Require Import Model.Common Model.Records Model.Jobs Model.TaskSet Model.Dag
     Model.Sched Model.Exec Model.Changes Spec.Graph Spec.Trace Spec.Changes
     Properties.Demo Proofs.DemoFacts Proofs.ChangeFacts.
Open Scope string_scope.
Open Scope nat_scope.
Open Scope list_scope.

(** * C98 Changing tasks while an execution exists *)

(** What can happen, and to which end, is what can happen without the changes: relations,
    hidden flags, recorded tasks and tasks outside the graph are not read any more. *)
Theorem C98_unaffected : forall c z acts s,
  wf_dag (c_dag c) -> all_harmless c z acts ->
  ((exists c', run_changing c (init z) acts = Some (c', s)) <-> run_labels c (init z) (steps_of acts) = Some s).
Proof. intros c z acts s Hwf. exact (unaffected c z Hwf acts s). Qed.
Print Assumptions C98_unaffected.

(** gen, once recorded, is replaced by something else; test, not begun yet, loses its
    dependencies and becomes hidden; a task outside of the set changes; app would now throw. *)
Fixpoint after_record (n : nid) (s : state) (ls : list label) : list label * list label :=
  match ls with
  | [] => ([], [])
  | l :: r => if recorded_b s n then ([], ls)
              else match step (demo 2) s l with
                   | Some s' => let (a, b) := after_record n s' r in (l :: a, b)
                   | None => ([], ls)
                   end
  end.
Definition demo_changes : list happening :=
  [Assign 1 (Task false [3] [] [] [7] true); Assign 5 (Task true [] [6] [1] [] true);
   Assign 99 (Task true [1] [] [] [7] true); Answer 3 IvThrow].
Definition demo_acts : list happening :=
  Eval vm_compute in
  (let (a, b) := after_record 1 (init 0) (demo_run 2 all_ok) in map Do a ++ demo_changes ++ map Do b).

Example C98_case :
  wf_dag (c_dag (demo 2)) /\ all_harmless (demo 2) 0 demo_acts /\ In (Assign 1 (Task false [3] [] [] [7] true)) demo_acts /\
  (exists c', run_changing (demo 2) (init 0) demo_acts = Some (c', demo_end 2 all_ok)) /\
  done (demo_end 2 all_ok) = true.
Proof.
  split; [exact wf_demo|]. assert (H : all_harmless (demo 2) 0 demo_acts) by (apply all_harmless_sound; vm_compute; reflexivity).
  split; [exact H|]. split; [find_in|]. split; [|vm_compute; reflexivity].
  apply (C98_unaffected (demo 2) 0 demo_acts _ wf_demo H). vm_compute. reflexivity.
Qed.

(** The resources of a task whose job is being executed are another matter.  Three tasks, the
    second and the third use resource 9; the first is given it while it is executed: ... *)
Definition trio_tasks (t : tid) : task := Task true [] [] [] (if t =? 1 then [] else [9]) false.
Definition trio : config :=
  Config (Dag [DNode 1 "//a" 1; DNode 2 "//b" 2; DNode 3 "//c" 3] []) 3 trio_tasks (fun _ => IvRet true "").
Lemma wf_trio : wf_dag (c_dag trio).
Proof. split; [vm_compute; repeat constructor; cbn; intuition discriminate|intros e []]. Qed.
Definition trio_begin : list label :=
  [LTick; LCtl; LTick; LCtl; LCtl; LCtl; LBegin 1; LTick; LCtl; LCtl; LCtl; LCtl; LBegin 2].
Definition trio_gains : list happening :=
  map Do trio_begin ++
  [Assign 1 (Task true [] [] [] [9] false)] ++
  map Do [LEnd 1 ok; LTick; LCtl; LCtl; LCtl; LTick; LCtl; LCtl; LCtl; LBegin 3].
(** ... two jobs that share it are executed at the same time. *)
Theorem C98_needs_own_resources : exists c acts c' s,
  wf_dag (c_dag c) /\ run_changing c (init 0) acts = Some (c', s) /\
  (exists p q t y, acts = map Do p ++ Assign t y :: map Do q /\ t_has_job y = t_has_job (c_task c t) /\ c_task c' t = y) /\
  exists n m r, n <> m /\ In n (running (trace s)) /\ In m (running (trace s)) /\
    In r (node_res c n) /\ In r (node_res c m) /\ In r (node_res c' n) /\ In r (node_res c' m).
Proof.
  exists trio, trio_gains.
  destruct (run_changing trio (init 0) trio_gains) as [[c' s]|] eqn:E; [|vm_compute in E; discriminate].
  exists c', s. split; [exact wf_trio|]. split; [reflexivity|].
  vm_compute in E. injection E as <- <-.
  split; [eexists _, _, 1, (Task true [] [] [] [9] false); split; [reflexivity|split; reflexivity]|].
  exists 2, 3, 9. split; [discriminate|]. repeat split; vm_compute; auto.
Qed.
Print Assumptions C98_needs_own_resources.

(** If the second loses it while it is executed, it is never released: the third cannot be
    started and an assertion fails. *)
Definition trio_loses : list happening :=
  map Do trio_begin ++ [Assign 2 (Task true [] [] [] [] false)] ++
  map Do [LEnd 1 ok; LEnd 2 ok; LTick; LCtl; LCtl; LCtl].
Theorem C98_needs_resources_kept : exists c acts c' s,
  wf_dag (c_dag c) /\ run_changing c (init 0) acts = Some (c', s) /\
  (exists p q t y, acts = map Do p ++ Assign t y :: map Do q /\ t_has_job y = t_has_job (c_task c t) /\ c_task c' t = y) /\
  s_pc s = Bad BadAssert332.
Proof.
  exists trio, trio_loses.
  destruct (run_changing trio (init 0) trio_loses) as [[c' s]|] eqn:E; [|vm_compute in E; discriminate].
  exists c', s. split; [exact wf_trio|]. split; [reflexivity|].
  vm_compute in E. injection E as <- <-.
  split; [eexists _, _, 2, (Task true [] [] [] [] false); split; [reflexivity|split; reflexivity]|]. reflexivity.
Qed.
Print Assumptions C98_needs_resources_kept.
