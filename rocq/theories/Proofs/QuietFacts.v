(** Between two calls of tick() only jobs do anything (C23). *)
From Coq Require Import Lia.
From Verif Require Import Model.Common Model.Records Model.Jobs Model.TaskSet Model.Dag
     Model.Sched Model.Exec Spec.Trace.
Open Scope nat_scope.
Open Scope list_scope.

Definition of_threads (e : event) : Prop := (exists n, e = EBegin n) \/ (exists n o, e = EEnd n o) \/ e = EDestroyed.

Lemma quiet_step c s l s' : step c s l = Some s' -> tick_running s = false -> l <> LTick -> (forall k, l <> LVisThrow k) ->
  tick_running s' = false /\ exists new, trace s' = trace s ++ new /\ Forall of_threads new.
Proof.
  intros E Ht H1 H2. unfold tick_running in *.
  assert (Q : forall t, s_log t = s_log s -> exists new, trace t = trace s ++ new /\ Forall of_threads new).
  { intros t Y. exists []. unfold trace. rewrite Y, app_nil_r. split; [reflexivity|constructor]. }
  assert (Q1 : forall t e, s_log t = e :: s_log s -> of_threads e -> exists new, trace t = trace s ++ new /\ Forall of_threads new).
  { intros t e Y He. exists [e]. unfold trace. rewrite Y. split; [reflexivity|constructor; [exact He|constructor]]. }
  destruct l as [| | | |k|n|n o|t]; cbn [step] in E; try congruence.
  - destruct (s_pc s); try discriminate; injection E as <-; split; try reflexivity; apply Q; reflexivity.
  - unfold ctl in E. destruct (s_pc s) as [|ph|ph kept rest|e rest|rest| |e| |b] eqn:Ep; try discriminate.
    destruct rest as [|sl rest].
    + injection E as <-. split; [reflexivity|]. apply (Q1 _ EDestroyed); [reflexivity|unfold of_threads; eauto].
    + destruct (destroy_one s sl); [|discriminate]. injection E as <-. split; [reflexivity|]. apply Q. reflexivity.
  - unfold ctl in E. destruct (s_pc s) as [|ph|ph kept rest|e rest|rest| |e| |b] eqn:Ep; try discriminate.
  - destruct (s_fut s n); try discriminate. injection E as <-. split; [exact Ht|]. apply (Q1 _ (EBegin n)); [reflexivity|unfold of_threads; eauto].
  - destruct (s_fut s n); try discriminate. injection E as <-. split; [exact Ht|]. apply (Q1 _ (EEnd n o)); [reflexivity|unfold of_threads; eauto].
  - injection E as <-. split; [exact Ht|]. apply Q. reflexivity.
Qed.

Lemma quiet_between : forall c ls s s', run_labels c s ls = Some s' -> tick_running s = false ->
  ~ In LTick ls -> (forall k, ~ In (LVisThrow k) ls) ->
  tick_running s' = false /\
  exists new, trace s' = trace s ++ new /\
    forall e, In e new -> (exists n, e = EBegin n) \/ (exists n o, e = EEnd n o) \/ e = EDestroyed.
Proof.
  intros c. induction ls as [|l ls IH]; intros s s' E Ht H1 H2.
  - injection E as <-. split; [exact Ht|]. exists []. rewrite app_nil_r. split; [reflexivity|intros e []].
  - cbn [run_labels] in E. destruct (step c s l) as [s1|] eqn:E1; [|discriminate].
    destruct (quiet_step c s l s1 E1 Ht) as [T1 (n1 & N1 & F1)].
    { intros ->. apply H1. left. reflexivity. }
    { intros k ->. apply (H2 k). left. reflexivity. }
    destruct (IH s1 s' E T1) as [T2 (n2 & N2 & F2)].
    { intros H. apply H1. right. exact H. }
    { intros k H. apply (H2 k). right. exact H. }
    split; [exact T2|]. exists (n1 ++ n2). rewrite N2, N1, app_assoc. split; [reflexivity|].
    intros e He. apply in_app_iff in He. destruct He as [He|He]; [|exact (F2 e He)].
    rewrite Forall_forall in F1. exact (F1 e He).
Qed.
