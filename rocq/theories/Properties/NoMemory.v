(** Running out of memory (C106). *)
From Coq Require Import String Relations.
From Verif Require Import Model.Common Model.Records Model.Jobs Model.TaskSet Model.Dag
     Model.Sched Model.Exec Model.Alloc Spec.Graph Spec.Trace Spec.Failure Spec.NoMemory
     Properties.Demo Proofs.DemoFacts Proofs.NoMemoryFacts.
Open Scope string_scope.
Open Scope nat_scope.
Open Scope list_scope.

(** * C106 Running out of memory *)

(** As long as memory does not run out, the executions are those of the other theorems. *)
Theorem C106_otherwise_the_same : forall c z ls,
  xrun c (xinit z) (map XDo ls) = option_map (fun s => XState s false) (run_labels c (init z) ls).
Proof. exact same_without. Qed.
Print Assumptions C106_otherwise_the_same.

(** Wherever it runs out: what happened is the beginning of what could have happened
    without that, followed at most by the destruction. *)
Theorem C106_nothing_new : forall c, wf_dag (c_dag c) -> forall z x, xreachable c z x ->
  exists s0 tr, reachable c z s0 /\ begins tr (trace s0) /\
    (xtrace x = tr \/ xtrace x = tr ++ [EDestroyed]).
Proof. exact nothing_new. Qed.
Print Assumptions C106_nothing_new.

(** So the guarantees about the jobs hold then too: each begins at most once, ... *)
Theorem C106_at_most_once : forall c, wf_dag (c_dag c) -> forall z x pre n post,
  xreachable c z x -> xtrace x = pre ++ EBegin n :: post ->
  In n (node_ids (c_dag c)) /\ ~ In (EBegin n) pre /\ ~ In (EBegin n) post.
Proof. exact nomem_once. Qed.
Print Assumptions C106_at_most_once.

(** ... only after everything it must run after, ... *)
Theorem C106_order : forall c, wf_dag (c_dag c) -> forall z x a b pre post,
  xreachable c z x -> clos_trans nid (runs_after (c_dag c)) a b -> xtrace x = pre ++ EBegin a :: post ->
  recorded pre b /\ (In (EBegin b) pre -> exists o, In (EEnd b o) pre) /\ ~ In (EBegin b) post.
Proof. exact nomem_order. Qed.
Print Assumptions C106_order.

(** ... and never beside one it shares a resource with. *)
Theorem C106_exclusion : forall c, wf_dag (c_dag c) -> forall z x pre post n m r,
  xreachable c z x -> xtrace x = pre ++ post ->
  In n (d_nodes (c_dag c)) -> In m (d_nodes (c_dag c)) ->
  In (n_id n) (running pre) -> In (n_id m) (running pre) ->
  In r (t_resources (c_task c (n_task n))) -> In r (t_resources (c_task c (n_task m))) -> n = m.
Proof. exact nomem_exclusion. Qed.
Print Assumptions C106_exclusion.

(** The exception is reported, and the execution destroyed, only after every job that was
    started has ended. *)
Theorem C106_waits : forall c, wf_dag (c_dag c) -> forall z x, xreachable c z x ->
  xresult x = XNoMemory \/ In EDestroyed (xtrace x) -> jobs_over (xtrace x).
Proof. exact nomem_waits. Qed.
Print Assumptions C106_waits.

(** After the failure there is never a record, nor another exception; the visitor is not
    called any more and no job is started. *)
Theorem C106_for_good : forall c, wf_dag (c_dag c) -> forall z x k x1 ls x2,
  xreachable c z x -> xstep c x (XFail k) = Some x1 -> xrun c x1 ls = Some x2 ->
  (forall er, xresult x2 <> XRecord er) /\ (forall e, xresult x2 <> XThrow e) /\
  exists new, xtrace x2 = xtrace x1 ++ new /\ forall ev, In ev new -> by_a_job ev \/ ev = EDestroyed.
Proof. exact nomem_for_good. Qed.
Print Assumptions C106_for_good.

(** The call in which it happened returns as soon as the jobs under way have ended, and
    result() throws that exception. *)
Theorem C106_returns : forall c, wf_dag (c_dag c) -> forall z x k x1 ls x2,
  xreachable c z x -> xstep c x (XFail k) = Some x1 ->
  forallb inner_label ls = true -> xrun c x1 (map XDo ls) = Some x2 -> jobs_over (xtrace x2) ->
  exists m x3, xrun c x2 (repeat (XDo LCtl) m) = Some x3 /\ xresult x3 = XNoMemory /\ xtrace x3 = xtrace x2.
Proof. exact nomem_returns. Qed.
Print Assumptions C106_returns.

(** It throws that exception only if memory did run out, once. *)
Theorem C106_cause : forall c, wf_dag (c_dag c) -> forall z ls x,
  xrun c (xinit z) ls = Some x -> xresult x = XNoMemory ->
  exists ls1 k ls2 s x1, ls = map XDo ls1 ++ XFail k :: map XDo ls2 /\
    run_labels c (init z) ls1 = Some s /\ xstep c (XState s false) (XFail k) = Some x1 /\
    xrun c x1 (map XDo ls2) = Some x.
Proof. exact nomem_cause. Qed.
Print Assumptions C106_cause.

Definition xgo (c : config) (ls : list xlabel) : xstate :=
  match xrun c (xinit 0) ls with Some x => x | None => xinit 0 end.
(** No memory to start lint while gen is executed; the execution is destroyed later. *)
Definition before_lint : list xlabel :=
  map XDo [LTick; LCtl; LTick; LCtl; LCtl; LCtl; LTick; LCtl].
Definition lint_fails : list xlabel := before_lint ++ [XFail 1].
Definition gen_ends : list label := [LBegin 1; LEnd 1 ok].
Example C106_case :
  let c := demo 2 in
  wf_dag (c_dag c) /\ xreachable c 0 (xgo c before_lint) /\
  xstep c (xgo c before_lint) (XFail 1) = Some (xgo c lint_fails) /\
  forallb inner_label gen_ends = true /\
  xrun c (xgo c lint_fails) (map XDo gen_ends) = Some (xgo c (lint_fails ++ map XDo gen_ends)) /\
  In (ELaunch 1) (xtrace (xgo c lint_fails)) /\ ~ (exists o, In (EEnd 1 o) (xtrace (xgo c lint_fails))) /\
  (* the call waits *)
  xrun c (xgo c lint_fails) (map XDo [LCtl; LCtl]) = None /\
  jobs_over (xtrace (xgo c (lint_fails ++ map XDo gen_ends))) /\
  xresult (xgo c (lint_fails ++ map XDo (gen_ends ++ [LCtl; LCtl; LCtl]))) = XNoMemory /\
  In EDestroyed (xtrace (xgo c (lint_fails ++ map XDo (gen_ends ++ [LCtl; LCtl; LCtl; LDestroy; LCtl])))).
Proof.
  split; [exact wf_demo|]. split; [exists before_lint; vm_compute; reflexivity|].
  split; [vm_compute; reflexivity|]. split; [reflexivity|]. split; [vm_compute; reflexivity|].
  split; [find_in|]. split.
  { assert (E : forallb (fun e => match e with EEnd _ _ => false | _ => true end)
                        (xtrace (xgo (demo 2) lint_fails)) = true) by (vm_compute; reflexivity).
    intros [o H]. rewrite forallb_forall in E. specialize (E _ H). discriminate E. }
  split; [vm_compute; reflexivity|]. split.
  { assert (E : forallb (fun e => match e with ELaunch n => n =? 1 | _ => true end)
                        (xtrace (xgo (demo 2) (lint_fails ++ map XDo gen_ends))) = true) by (vm_compute; reflexivity).
    intros n H. rewrite forallb_forall in E. specialize (E _ H). apply Nat.eqb_eq in E. subst n.
    exists ok. find_in. }
  split; [vm_compute; reflexivity|find_in].
Qed.
(** In the first tick, after three tasks have been reported; and when everything is done,
    for the copy of the record. *)
Example C106_case_first_last :
  let c := demo 2 in
  xresult (xgo c [XFail 3; XDo LCtl]) = XNoMemory /\
  List.length (xtrace (xgo c [XFail 3; XDo LCtl])) = 3 /\
  let ls := removelast (demo_run 2 all_ok) in
  xresult (xgo c (map XDo ls ++ [XFail 1; XDo LCtl])) = XNoMemory /\
  xtrace (xgo c (map XDo ls ++ [XFail 1; XDo LCtl])) = trace (demo_end 2 all_ok) /\
  (exists er, result (demo_end 2 all_ok) = RRecord er) /\
  xreachable c 0 (xgo c (map XDo ls ++ [XFail 1; XDo LCtl])) /\
  runs_after (c_dag c) 2 1 /\ In (EBegin 2) (xtrace (xgo c (map XDo ls ++ [XFail 1; XDo LCtl]))).
Proof.
  split; [vm_compute; reflexivity|]. split; [vm_compute; reflexivity|].
  split; [vm_compute; reflexivity|]. split; [vm_compute; reflexivity|].
  split; [eexists; vm_compute; reflexivity|].
  split; [exists (map XDo (removelast (demo_run 2 all_ok)) ++ [XFail 1; XDo LCtl]); vm_compute; reflexivity|].
  split; [vm_compute; tauto|find_in].
Qed.
