(** C82 The reasons process checks give. *)
From Coq Require Import String Lia.
From Verif Require Import Model.Common Model.Records Model.Jobs Model.TaskSet Model.Dag
     Model.Sched Model.Exec Model.ExecSet Model.Text Model.Process
     Spec.Graph Spec.Trace Spec.Tasks Spec.Files Spec.Reasons
     Properties.Demo Proofs.DemoFacts Proofs.TaskFacts Proofs.ReasonFacts
     Properties.TaskSets Properties.Processes Properties.Rebuilds.
Open Scope string_scope.
Open Scope nat_scope.
Open Scope list_scope.

(** * C82 *)

(** Of any files and any process: the text of the check states something true of the files,
    and its answer is the one that goes with the text. *)
Theorem C82_check : forall f p, exists r, reason_holds f p r /\
  forall fmt, iv_log (is_invalidated fmt f p) = reason_log fmt r /\
    (iv_invalidated (is_invalidated fmt f p) = true <-> reason_answer f p r).
Proof. exact check_reason. Qed.
Print Assumptions C82_check.

(** So texts that name one file can be taken at their word. *)
Theorem C82_read : forall fmt f p r, iv_log (is_invalidated fmt f p) = reason_log fmt r ->
  match r with LastFailed _ _ | Compared _ _ _ _ => True | _ => reason_holds f p r end.
Proof. exact reason_read. Qed.
Print Assumptions C82_read.

(** What the visitor of an execution of processes is told about a task is such a reason, true
    of the files the checks read, and the value it is told goes with it. *)
Theorem C82_shown : forall fmt f job st ts filt addr c z s n v t,
  execution_of st ts filt (process_checks fmt f job) addr c -> reachable c z s ->
  In (EInval n v t) (trace s) ->
  exists u r, selected st ts filt u /\ n = addr u /\ reason_holds f (job u) r /\ t = reason_log fmt r /\
    (v = INVALID <-> reason_answer f (job u) r).
Proof. exact shown_reason. Qed.
Print Assumptions C82_shown.

Example C82_case :
  reason_holds fs_demo cc_a (Compared "a.o" 20 "a.h" 12) /\ ~ reason_answer fs_demo cc_a (Compared "a.o" 20 "a.h" 12) /\
  reason_holds fs_demo cc_b (Compared "b.o" 25 "b.c" 30) /\ reason_answer fs_demo cc_b (Compared "b.o" 25 "b.c" 30) /\
  iv_log (is_invalidated dec_Z fs_demo (Process ["cc"] ["a.c"] ["a.o"; "gone"] None)) = "missing output: gone" /\
  iv_log (is_invalidated dec_Z fs_demo (Process ["cc"] ["a.c"] ["a.o"] (Some "rc3"))) =
    "last retcode is nonzero: 3 in rc3" /\
  iv_log (is_invalidated dec_Z fs_demo (Process ["cc"] ["a.c"] ["a.o"] (Some "gone"))) = "no retcode filegone".
Proof.
  assert (La : ~ last_run_bad fs_demo cc_a) by (intros (rf & E & _); discriminate E).
  assert (Lb : ~ last_run_bad fs_demo cc_b).
  { intros (rf & E & H). injection E as <-. destruct H as [H|(x & E & H)]; [discriminate H|].
    injection E as <-. apply H. reflexivity. }
  split; [|split; [cbn; lia|split; [|split; [cbn; lia|repeat split]]]].
  - split; [exact La|]. split; [cbn; auto|]. split; [cbn; auto|]. split; [eexists; split; reflexivity|].
    split; [reflexivity|]. split; intros x Hx; cbn in Hx; repeat (destruct Hx as [<-|Hx]; [discriminate|]); destruct Hx.
  - split; [exact Lb|]. split; [cbn; auto|]. split; [cbn; auto|]. split; [eexists; split; reflexivity|].
    split; [reflexivity|]. split; intros x Hx; cbn in Hx; repeat (destruct Hx as [<-|Hx]; [discriminate|]); destruct Hx.
Qed.

Definition told : config := demo_of (process_checks dec_Z fs_demo (fun t => if t =? 2 then cc_b else cc_a)).
Example C82_case_shown : exists s,
  execution_of demo_store demo_set "" (process_checks dec_Z fs_demo (fun t => if t =? 2 then cc_b else cc_a)) (fun t => t) told /\
  reachable told 0 s /\
  exists t, In (EInval 2 INVALID t) (trace s).
Proof.
  exists (go told (drive told all_ok 60 (init 0))).
  split; [apply demo_execution|]. split; [apply go_reachable; vm_compute; reflexivity|].
  eexists. find_in.
Qed.
