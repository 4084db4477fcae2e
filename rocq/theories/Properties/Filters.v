(** What filters select (C103). *)
From Coq Require Import String Relations Permutation.
From Verif Require Import Model.Common Model.Records Model.Jobs Model.TaskSet Model.Dag
     Model.Sched Model.Exec Model.ExecSet Spec.Graph Spec.Trace Spec.Tasks Spec.Filters
     Properties.Demo Proofs.DemoFacts Proofs.TaskFacts Proofs.FilterFacts.
Open Scope string_scope.
Open Scope nat_scope.
Open Scope list_scope.

(** * C103 What filters select *)

(** A longer filter selects fewer tasks. *)
Theorem C103_longer_is_narrower : forall st ts f1 iv1 addr1 c1 z1 s1 er1 f2 iv2 addr2 c2 z2 s2 er2,
  execution_of st ts f1 iv1 addr1 c1 -> reachable c1 z1 s1 -> result s1 = RRecord er1 ->
  execution_of st ts f2 iv2 addr2 c2 -> reachable c2 z2 s2 -> result s2 = RRecord er2 ->
  substring f1 f2 -> incl (map r_task (er_runs er2)) (map r_task (er_runs er1)).
Proof. exact filter_antitone. Qed.
Print Assumptions C103_longer_is_narrower.

(** The empty filter selects everything in the set, and what it depends on. *)
Theorem C103_everything : forall st ts iv addr c z s er,
  execution_of st ts "" iv addr c -> reachable c z s -> result s = RRecord er ->
  forall t, In t (map r_task (er_runs er)) <->
            exists p u, holds ts p u /\ clos_refl_trans tid (depends_on st) u t.
Proof. exact filter_everything. Qed.
Print Assumptions C103_everything.

(** A filter no full name contains selects nothing. *)
Theorem C103_nothing : forall st ts filt iv addr c z s er,
  execution_of st ts filt iv addr c -> reachable c z s -> result s = RRecord er ->
  (forall p t, holds ts p t -> ~ substring filt (full_name p)) -> er_runs er = [].
Proof. exact filter_nothing. Qed.
Print Assumptions C103_nothing.

(** The name of a subset with a slash behind it selects exactly the tasks in the subset and
    in the subsets below it, and what they depend on. *)
Theorem C103_subset : forall st ts q iv addr c z s er,
  execution_of st ts (full_name q ++ "/") iv addr c -> reachable c z s -> result s = RRecord er ->
  well_named q -> all_well_named ts ->
  forall t, In t (map r_task (er_runs er)) <->
            exists p u, p <> [] /\ holds ts (q ++ p) u /\ clos_refl_trans tid (depends_on st) u t.
Proof. exact filter_subtree. Qed.
Print Assumptions C103_subset.

(** The full name of a task selects it, and all tasks with a name that continues it: in the
    same set ([r' = []]) or in a subset. *)
Theorem C103_task : forall st ts p iv addr c z s er,
  execution_of st ts (full_name p) iv addr c -> reachable c z s -> result s = RRecord er ->
  well_named p -> p <> [] -> all_well_named ts ->
  forall t, In t (map r_task (er_runs er)) <->
            exists r n e r' u, p = r ++ [n] /\ holds ts (r ++ (n ++ e)%string :: r') u /\
                               clos_refl_trans tid (depends_on st) u t.
Proof. exact filter_name. Qed.
Print Assumptions C103_task.

(** So no filter matches a task without matching the tasks whose names contain its name. *)
Theorem C103_inseparable : forall st ts filt iv addr c z s er p t q u,
  execution_of st ts filt iv addr c -> reachable c z s -> result s = RRecord er ->
  holds ts p t -> holds ts q u -> substring filt (full_name p) -> substring (full_name p) (full_name q) ->
  In t (map r_task (er_runs er)) /\ In u (map r_task (er_runs er)).
Proof. exact filter_inseparable. Qed.
Print Assumptions C103_inseparable.

(** Tasks app and app2, subsets sub and sub2 with a task a each; app depends on sub/a. *)
Definition named_tasks (t : tid) : task := Task true (if t =? 1 then [3] else []) [] [] [] false.
Definition named_store : store := Store [1; 2; 3; 4] named_tasks.
Definition named_set : task_set :=
  TaskSet [("app", 1); ("app2", 2)] [("sub", TaskSet [("a", 3)] []); ("sub2", TaskSet [("a", 4)] [])].
Definition named_inval (t : tid) : inval_answer := IvRet true "".
Definition named (filt : string) : config :=
  match exec_set named_store named_set 2 filt named_inval (fun t => t) (fun l => l) (fun l => l) with
  | Built c => c
  | _ => demo 2
  end.
Definition named_end (filt : string) : state := go (named filt) (drive (named filt) all_ok 60 (init 0)).
Definition taken (filt : string) : option (list tid) :=
  match result (named_end filt) with RRecord er => Some (map r_task (er_runs er)) | _ => None end.

Lemma named_ordered : ordered named_set.
Proof.
  constructor; [repeat constructor|repeat constructor|]. intros name s H. cbn in H.
  destruct H as [E|[E|[]]]; injection E as <- <-; constructor; try (repeat constructor); intros ? ? [].
Qed.
Lemma named_owned : owned named_set.
Proof. apply owned_visited. vm_compute. repeat constructor; cbn; intuition discriminate. Qed.
Lemma named_well : all_well_named named_set.
Proof.
  intros p t H. apply paths_holds in H. vm_compute in H.
  repeat destruct H as [E|H]; try destruct H; injection E as <- <-;
    intros c Hc; repeat destruct Hc as [<-|Hc]; try destruct Hc; (split; [discriminate|reflexivity]).
Qed.
Lemma named_of filt : In filt [""; "//sub/"; "//sub"; "//app"; "//app2"; "none"] ->
  execution_of named_store named_set filt named_inval (fun t => t) (named filt) /\
  reachable (named filt) 0 (named_end filt).
Proof.
  intros H. split.
  - exists 2, (fun l => l), (fun l => l).
    split; [intros l; apply Permutation_refl|]. split; [intros l; apply Permutation_refl|].
    split; [exact named_ordered|]. split; [exact named_owned|]. split; [split; [auto|intros a _ []]|].
    destruct H as [<-|[<-|[<-|[<-|[<-|[<-|[]]]]]]]; vm_compute; reflexivity.
  - unfold named_end. apply go_reachable.
    destruct H as [<-|[<-|[<-|[<-|[<-|[<-|[]]]]]]]; vm_compute; reflexivity.
Qed.
Example C103_case :
  ordered named_set /\ owned named_set /\ all_well_named named_set /\
  full_name ["sub"] = "//sub" /\ full_name ["app"] = "//app" /\
  (forall filt, In filt [""; "//sub/"; "//sub"; "//app"; "//app2"; "none"] ->
     execution_of named_store named_set filt named_inval (fun t => t) (named filt) /\
     reachable (named filt) 0 (named_end filt)) /\
  taken "" = Some [3; 1; 2; 4] /\ taken "//sub/" = Some [3] /\ taken "//sub" = Some [3; 4] /\
  taken "//app" = Some [3; 1; 2] /\ taken "//app2" = Some [2] /\ taken "none" = Some [].
Proof.
  split; [exact named_ordered|]. split; [exact named_owned|]. split; [exact named_well|].
  split; [reflexivity|]. split; [reflexivity|]. split; [exact named_of|].
  repeat split; vm_compute; reflexivity.
Qed.
