(** Programs that put task sets together: C95. *)
From Coq Require Import String Relations Permutation Sorted.
From Verif Require Import Model.Common Model.Records Model.Jobs Model.Text Model.TaskSet Model.Dag Model.Sched Model.Exec
     Model.ExecSet Model.Assemble Spec.Graph Spec.Trace Spec.Tasks Spec.Assembly
     Properties.Demo Proofs.DemoFacts Proofs.AssembleFacts Proofs.ExampleFacts.
Open Scope string_scope.
Open Scope nat_scope.
Open Scope list_scope.

(** * C95 Task sets, however they are assembled *)

(** The maps are in key order, no task is in two places, and a task in a set exists. *)
Theorem C95_sets : forall x os a, assemble_all (assembly0 x) os = Some a ->
  (forall v, ordered (a_sets a v)) /\
  (forall v p w q t, holds (a_sets a v) p t -> holds (a_sets a w) q t -> v = w /\ p = q) /\
  (forall v p t, holds (a_sets a v) p t -> In t (st_dom (a_store a))).
Proof. exact assembled_sets. Qed.
Print Assumptions C95_sets.

(** What is where after an operation, and which tasks exist. *)
Theorem C95_places : forall x os a o a',
  assemble_all (assembly0 x) os = Some a -> assemble a o = Some a' ->
  (forall w q u, holds (a_sets a' w) q u <-> placed a o w q u) /\
  (forall u, In u (st_dom (a_store a')) <-> alive a o u).
Proof. exact places. Qed.
Print Assumptions C95_places.

(** A reference to a task stays good while nothing is destroyed: the task moves with its set ... *)
Theorem C95_stays : forall x os a o a' v p t,
  assemble_all (assembly0 x) os = Some a -> builds a o -> assemble a o = Some a' ->
  holds (a_sets a v) p t ->
  exists w q, moved o v p w q /\ holds (a_sets a' w) q t.
Proof. exact task_stays. Qed.
Print Assumptions C95_stays.

(** ... and keeps its contents, unless it is assigned to or changed. *)
Theorem C95_content : forall x os a o a' t,
  assemble_all (assembly0 x) os = Some a -> assemble a o = Some a' -> In t (st_dom (a_store a)) ->
  match o with
  | APut v p name _ y =>
      st_get (a_store a') t = st_get (a_store a) t \/
      (holds (a_sets a v) (p ++ [name]) t /\ st_get (a_store a') t = y)
  | AChange u y => st_get (a_store a') t = if t =? u then y else st_get (a_store a) t
  | AHelp h u v p => a_store a' = help h (a_store a) u (set_at (a_sets a v) p)
  | _ => st_get (a_store a') t = st_get (a_store a) t
  end.
Proof. exact task_content. Qed.
Print Assumptions C95_content.

(** Assignment to a name: the task there keeps its address, so that references to it now
    mean the new task; without one, a new task is made. *)
Theorem C95_put : forall x os a v p name t y a',
  assemble_all (assembly0 x) os = Some a -> assemble a (APut v p name t y) = Some a' ->
  exists u, holds (a_sets a' v) (p ++ [name]) u /\ st_get (a_store a') u = y /\
    ((exists z, holds (a_sets a v) (p ++ [name]) z) -> holds (a_sets a v) (p ++ [name]) u) /\
    (~ (exists z, holds (a_sets a v) (p ++ [name]) z) -> u = t /\ ~ In t (st_dom (a_store a))).
Proof. exact task_put. Qed.
Print Assumptions C95_put.

(** A program that destroys no task and depends on existing tasks only can execute each of
    its sets: the hypotheses of C01 to C94 about executions of task sets hold. *)
Theorem C95_executable : forall x os a v threads filt iv addr ord1 ord2,
  only_builds (assembly0 x) os a -> some_order ord1 -> some_order ord2 ->
  fresh_nodes dag0 addr (selected (a_store a) (a_sets a v) filt) ->
  exists c, exec_set (a_store a) (a_sets a v) threads filt iv addr ord1 ord2 = Built c /\
            execution_of (a_store a) (a_sets a v) filt iv addr c.
Proof. exact built_executable. Qed.
Print Assumptions C95_executable.

(** "Destroys no task" is needed. *)
Theorem C95_needs_tasks : exists a,
  assemble_all (assembly0 sleeping_task) replaced = Some a /\
  holds (a_sets a 0) ["x"] 2 /\ depends_on (a_store a) 2 1 /\ ~ In 1 (st_dom (a_store a)) /\
  forall threads iv addr ord1 ord2, some_order ord1 -> some_order ord2 ->
    exec_set (a_store a) (a_sets a 0) threads "" iv addr ord1 ord2 = BuildUB.
Proof. exact replaced_dangles. Qed.
Print Assumptions C95_needs_tasks.

(** example.cpp, for any number of tasks in place of 20 and any addresses. *)
Theorem C95_example_set : forall x n aa ab,
  (forall i j, i < n -> j < n -> aa i = aa j -> i = j) -> (forall i j, i < n -> j < n -> ab i = ab j -> i = j) ->
  (forall i j, i < n -> j < n -> aa i <> ab j) ->
  exists a, only_builds (assembly0 x) (example_main n aa ab) a /\
    (forall p t, holds (a_sets a 0) p t <->
       exists i, i < n /\ ((p = ["a"; ("task_" ++ dec_nat i)%string] /\ t = aa i) \/ (p = ["b"; ("task_" ++ dec_nat i)%string] /\ t = ab i))) /\
    (forall t, In t (st_dom (a_store a)) -> st_get (a_store a) t = Task true [] [] [] [] false).
Proof. exact example_built. Qed.
Print Assumptions C95_example_set.

Theorem C95_example : forall x n aa ab a iv addr c z s er,
  (forall i j, i < n -> j < n -> aa i = aa j -> i = j) -> (forall i j, i < n -> j < n -> ab i = ab j -> i = j) ->
  (forall i j, i < n -> j < n -> aa i <> ab j) ->
  assemble_all (assembly0 x) (example_main n aa ab) = Some a ->
  execution_of (a_store a) (a_sets a 0) "" iv addr c -> (forall t, exists log, iv t = IvRet true log) ->
  reachable c z s -> (forall m o, In (EEnd m o) (trace s) -> job_code o = 0%Z) -> result s = RRecord er ->
  Permutation (map r_name (er_runs er))
    (map (fun i => "//a/task_" ++ dec_nat i)%string (seq 0 n) ++ map (fun i => "//b/task_" ++ dec_nat i)%string (seq 0 n)) /\
  forall r, In r (er_runs er) -> r_status r = OK.
Proof. exact example_executed. Qed.
Print Assumptions C95_example.

(** The program of README.md: the set it makes, ... *)
Theorem C95_readme_set : forall x a b d, a <> b ->
  exists asm1 asm, assemble_all (assembly0 x) (firstn 1 (readme_main a b d)) = Some asm1 /\
    only_builds (assembly0 x) (readme_main a b d) asm /\
    st_get (a_store asm1) a = Task true [] [] [] [] true /\
    (forall p t, holds (a_sets asm 0) p t <-> (p = ["A"] /\ t = a) \/ (p = ["B"] /\ t = b)) /\
    st_get (a_store asm) a = Task true [b] [] [] [] false /\ st_get (a_store asm) b = Task true [a] [] [] [] false.
Proof. exact readme_built. Qed.
Print Assumptions C95_readme_set.

(** ... whose tasks A and B depend on each other. *)
Theorem C95_readme : forall x a b d asm iv addr c z s0 s,
  a <> b -> assemble_all (assembly0 x) (readme_main a b d) = Some asm ->
  execution_of (a_store asm) (a_sets asm 0) "" iv addr c -> reachable c z s0 -> s_pc s0 = Created ->
  step c s0 LTick = Some s -> result s = RThrow ExcCycle.
Proof. exact readme_cycle. Qed.
Print Assumptions C95_readme.

(** ** Cases *)

(** example.cpp with three tasks in each set, executed to the end. *)
Definition ex_a (i : nat) : tid := 10 + i.
Definition ex_b (i : nat) : tid := 20 + i.
Definition always (t : tid) : inval_answer := IvRet true "always".
Definition ex_asm : assembly :=
  match assemble_all (assembly0 sleeping_task) (example_main 3 ex_a ex_b) with Some a => a | None => assembly0 sleeping_task end.
Definition ex_conf : config :=
  match exec_set (a_store ex_asm) (a_sets ex_asm 0) 2 "" always (fun t => t) (fun l => l) (fun l => l) with
  | Built c => c
  | _ => demo 0
  end.
Definition ex_end : state := go ex_conf (drive ex_conf all_ok 60 (init 0)).

Lemma ex_asm_made : assemble_all (assembly0 sleeping_task) (example_main 3 ex_a ex_b) = Some ex_asm.
Proof. reflexivity. Qed.
Lemma ex_apart : (forall i j, i < 3 -> j < 3 -> ex_a i = ex_a j -> i = j) /\
  (forall i j, i < 3 -> j < 3 -> ex_b i = ex_b j -> i = j) /\ (forall i j, i < 3 -> j < 3 -> ex_a i <> ex_b j).
Proof.
  split; [intros i j _ _ E; now inversion E|]. split; [intros i j _ _ E; now inversion E|].
  intros i j Hi _ E. unfold ex_a, ex_b in E. do 3 (destruct i as [|i]; [discriminate E|]).
  do 3 apply le_S_n in Hi. inversion Hi.
Qed.
Lemma ex_built : only_builds (assembly0 sleeping_task) (example_main 3 ex_a ex_b) ex_asm.
Proof.
  destruct ex_apart as (H1 & H2 & H3). destruct (example_built sleeping_task 3 ex_a ex_b H1 H2 H3) as (a & B & _).
  assert (E : ex_asm = a) by (pose proof (builds_all _ _ _ B) as E; rewrite ex_asm_made in E; now inversion E).
  now rewrite E.
Qed.

Example C95_case_example :
  execution_of (a_store ex_asm) (a_sets ex_asm 0) "" always (fun t => t) ex_conf /\
  reachable ex_conf 0 ex_end /\
  (exists er, result ex_end = RRecord er /\
     map r_name (er_runs er) = ["//a/task_0"; "//a/task_1"; "//a/task_2"; "//b/task_0"; "//b/task_1"; "//b/task_2"]) /\
  In (EEnd 10 (all_ok 10)) (trace ex_end) /\ job_code (all_ok 10) = 0%Z.
Proof.
  split; [|split; [apply go_reachable; vm_compute; reflexivity|]].
  - destruct (built_executable sleeping_task _ ex_asm 0 2 "" always (fun t => t) (fun l => l) (fun l => l) ex_built) as (c & E & X).
    + intros l. apply Permutation_refl.
    + intros l. apply Permutation_refl.
    + split; [auto|intros a _ []].
    + replace ex_conf with c; [exact X|]. unfold ex_conf. rewrite E. reflexivity.
  - split; [eexists; split; vm_compute; reflexivity|]. split; [find_in|reflexivity].
Qed.

(** README.md with three addresses. *)
Example C95_case_readme : exists asm c s,
  only_builds (assembly0 sleeping_task) (readme_main 1 2 3) asm /\
  assemble_all (assembly0 sleeping_task) (readme_main 1 2 3) = Some asm /\
  execution_of (a_store asm) (a_sets asm 0) "" always (fun t => t) c /\ reachable c 0 (init 0) /\
  s_pc (init 0) = Created /\ step c (init 0) LTick = Some s.
Proof.
  destruct (assemble_all (assembly0 sleeping_task) (readme_main 1 2 3)) as [asm|] eqn:E; [|vm_compute in E; discriminate].
  assert (B : only_builds (assembly0 sleeping_task) (readme_main 1 2 3) asm).
  { unfold readme_main in E. cbn in E. inversion E; subst asm; clear E.
    eapply ob_op; [|reflexivity|]; [cbn; tauto|]. eapply ob_op; [|reflexivity|]; [cbn; tauto|].
    eapply ob_op; [|reflexivity|apply ob_done]. cbn. tauto. }
  destruct (built_executable sleeping_task _ asm 0 2 "" always (fun t => t) (fun l => l) (fun l => l) B) as (c & Ec & X).
  - intros l. apply Permutation_refl.
  - intros l. apply Permutation_refl.
  - split; [auto|intros a _ []].
  - vm_compute in E. inversion E; subst asm; clear E. vm_compute in Ec. inversion Ec; subst c; clear Ec.
    eexists _, _, _. split; [exact B|]. split; [reflexivity|]. split; [exact X|]. split; [now exists []|].
    split; [reflexivity|]. vm_compute. reflexivity.
Qed.

(** A set with a set in it is moved into another one; a task in it is a dependency of a task
    elsewhere, and an assignment to its name keeps its address. *)
Definition moving : list assemble_op :=
  [ APut 1 ["in"] "t" 1 sleeping_task; ANew 5 (Task true [1] [] [] [] false); AMove 0 ["out"] 1 [];
    AHelp AddDepToEach 5 0 ["out"] ].
Definition moved_asm : assembly :=
  match assemble_all (assembly0 sleeping_task) moving with Some a => a | None => assembly0 sleeping_task end.
Example C95_case_moved :
  only_builds (assembly0 sleeping_task) moving moved_asm /\
  holds (a_sets moved_asm 0) ["out"; "in"; "t"] 1 /\ t_depends_on (st_get (a_store moved_asm) 5) = [1; 1] /\
  (exists a', assemble moved_asm (APut 0 ["out"; "in"] "t" 9 (Task true [] [] [] [] true)) = Some a' /\
     st_get (a_store a') 1 = Task true [] [] [] [] true) /\
  (exists a', assemble moved_asm (AEraseSet 0 ["out"] "in") = Some a' /\ ~ In 1 (st_dom (a_store a'))).
Proof.
  split; [|split; [|split; [vm_compute; reflexivity|]]].
  - unfold moving. eapply ob_op; [cbn; tauto|reflexivity|]. eapply ob_op; [|reflexivity|]; [cbn; tauto|].
    eapply ob_op; [|reflexivity|].
    + intros r t H. inversion H as [? ? ? ? HI|? ? ? ? ? ? HI]; destruct HI.
    + eapply ob_op; [exact I|reflexivity|]. apply ob_done.
  - eapply holds_below; [left; reflexivity|]. eapply holds_below; [left; reflexivity|]. apply holds_here. left. reflexivity.
  - split; (eexists; split; [vm_compute; reflexivity|]); [reflexivity|]. cbn. intuition discriminate.
Qed.
