(** Cases for C99 and C100. *)
From Coq Require Import Lia String Permutation Relations.
From Verif Require Import Model.Common Model.Records Model.Jobs Model.TaskSet Model.Dag
     Model.Sched Model.Exec Spec.Graph Spec.Trace
     Proofs.Sets Proofs.SchedFacts Proofs.InvalFacts Proofs.TraceFacts Proofs.ExecInv
     Proofs.ExecStep Proofs.ExecCtl Proofs.LogFacts Proofs.ExecProps Proofs.ExecProps2
     Proofs.StepCases Proofs.ExecProps3 Proofs.Ticks Proofs.Threads Proofs.Determinism
     Spec.Parallel Spec.Machine Properties.Demo Proofs.DemoFacts Proofs.MachineFacts.
Open Scope string_scope.
Open Scope nat_scope.
Open Scope list_scope.

(** The demo graph, nobody has a resource, a thread for everyone. *)
Definition roomy : config := Config demo_dag 6 (fun _ => Task true [] [] [] [] false) demo_inval.
Lemma roomy_plenty : plenty roomy.
Proof. split; [intros a b _ _ _ r []|vm_compute; lia]. Qed.
Lemma roomy_executable : executable roomy.
Proof.
  split; [exact acyclic_demo|]. intros n _. split; [reflexivity|]. cbn. unfold demo_inval.
  destruct (_ || _); discriminate.
Qed.
Definition roomy_steps : list job_step :=
  [Begins 6; Begins 1; Ends 1 ok; Begins 2; Ends 2 failing; Ends 6 ok].
(** Let the steps happen as soon as they can. *)
Fixpoint chase (c : config) (k : nat) (s : state) (steps : list job_step) : list label :=
  match k, steps with
  | S k, j :: r =>
      let l := match j with Begins n => LBegin n | Ends n o => LEnd n o end in
      match step c s l with
      | Some s' => l :: chase c k s' r
      | None => match first_step c s [LCtl; LTick] with
                | Some (l', s') => l' :: chase c k s' (j :: r)
                | None => []
                end
      end
  | _, _ => []
  end.
Definition roomy_state : state := go roomy (chase roomy 80 (init 0) roomy_steps).
Lemma reach_roomy : reachable roomy 0 roomy_state.
Proof. apply go_reachable. vm_compute. reflexivity. Qed.
Lemma roomy_jobs : jobs (trace roomy_state) = roomy_steps.
Proof. vm_compute. reflexivity. Qed.
Lemma roomy_machine : machine roomy roomy_steps.
Proof. rewrite <- roomy_jobs. apply (machine_sound roomy 0); [exact wf_demo|exact req_after_demo|exact reach_roomy]. Qed.

(** lib (2) cannot be the first to begin: it is to run after gen (1). *)
Lemma roomy_not : ~ machine roomy [Begins 2].
Proof.
  intros H. remember [Begins 2] as h0 eqn:E. destruct H as [|h n _ _ Ht _ _|h n o _ _ _].
  - discriminate.
  - destruct h as [|x [|y h]]; try discriminate. cbn in E. injection E as E. subst n.
    destruct Ht as (_ & _ & _ & _ & Ht).
    destruct (Ht 1) as [[o Ho]|[Hi|(p & Hq & Hf)]].
    + apply t_step. vm_compute. tauto.
    + destruct Ho.
    + apply Hi. exists 1. split; [apply rt_refl|]. exists "changed". reflexivity.
    + clear -Hf. induction Hf as [n o Ho _|]; [destruct Ho|assumption].
  - destruct h as [|x [|y h]]; try discriminate.
Qed.

(** Two independent tasks and one thread: the one with the smaller address begins first,
    although the machine allows the other one to. *)
Definition queue : config :=
  Config (Dag [DNode 1 "a" 1; DNode 2 "b" 6] []) 1 demo_tasks (fun _ => IvRet true "").
Lemma queue_wf : wf_dag (c_dag queue).
Proof. apply wf_dagb_wf. vm_compute. reflexivity. Qed.
Lemma queue_ra : requires_after (c_dag queue).
Proof. intros a b []. Qed.
Lemma queue_res a b : no_shared_resource queue a b.
Proof.
  intros r Hr. exfalso. revert Hr. unfold node_res, node_task. cbn.
  destruct a as [|[|[|a]]]; cbn; tauto.
Qed.
Lemma queue_inval n : Invalidated queue n.
Proof. exists n. split; [apply rt_refl|]. exists "". reflexivity. Qed.
Lemma queue_acyclic : acyclic (c_dag queue).
Proof. intros [n H]. induction H as [x y []|]; assumption. Qed.
Lemma queue_machine : machine queue [Begins 2].
Proof.
  apply (machine_begin queue [] 2).
  - constructor.
  - split; [exact queue_acyclic|]. intros n [<-|[<-|[]]]; split; try reflexivity; discriminate.
  - split; [right; left; reflexivity|]. split; [intros []|]. split; [apply queue_inval|].
    split; [intros p []|]. intros m H. exfalso. induction H as [x y []|]; assumption.
  - intros m [].
  - vm_compute. lia.
Qed.

Lemma queue_gen l : gen (c_dag queue) l -> l = [] \/ exists r, l = 1 :: r.
Proof.
  induction 1 as [|l m Hl IH Hm]; [left; reflexivity|right]. destruct IH as [->|[r ->]].
  - vm_compute in Hm. injection Hm as <-. exists []. reflexivity.
  - exists (r ++ [m]). reflexivity.
Qed.

Definition second_waits (s : state) : Prop := s_fut s 2 <> FNone -> ended_l (s_log s) 1.

Lemma queue_step z s l s' : reachable queue z s -> second_waits s -> step queue s l = Some s' -> second_waits s'.
Proof.
  intros HR H E H2. pose proof (r_inv queue z s queue_wf HR) as HI.
  pose proof (reachable_step queue z s l s' HR E) as HR'. pose proof (r_inv queue z s' queue_wf HR') as HI'.
  assert (M : s_fut s 2 <> FNone -> ended_l (s_log s') 1).
  { intros X. destruct (H X) as [o Ho]. exists o. destruct (step_log queue s l s' queue_wf HI E) as [new ->].
    apply in_app_iff. right; exact Ho. }
  destruct (fut_step queue s l s' 2 queue_wf HI E) as [F|[[F [[-> F']|[-> F']]]|[(o & F & -> & F')|(F & F' & ->)]]];
    try (apply M; congruence).
  assert (Hact : Determinism.active (s_pc s')).
  { cbn [step] in E. destruct (ctl_cases queue s s' HI E) as
      [ph kept sl rest n s' Epc Esl _ Es|ph kept sl rest n s' Epc Esl _ _ Es
      |ph kept sl rest n s1 s' Epc Esl _ _ Es1 Es|ph kept sl rest n rec s' Epc Esl Ef Es
      |ph kept sl rest n rec s' Epc Esl Ht Es|ph kept sl rest n rec o s1 s2 s' Epc Esl _ Es1 Es2 Es
      |kept s1 s' Epc Es1 Es|kept s1 s' Epc Es1 Es|e s' Epc Es|e sl rest s' Epc _ Es|s' Epc Es|sl rest s' Epc _ Es];
    try (subst s'; cbn; rewrite ?Epc; exact I); try (subst s' s1; cbn; exact I);
    try (exfalso; apply H2; subst s'; exact F').
    subst s1. destruct (dispatch_cases queue s kept s' queue_wf HI Epc Es) as [s' E1 E2 E3 E4|m0 s' E1 E2 E3 E4|s' E1 E2 E3];
    rewrite E1; exact I. }
  assert (Hw : unfin (s_fut s' 2)).
  { destruct (s_fut s' 2); cbn in F |- *; try discriminate; try exact I. congruence. }
  destruct (k_unfin _ _ _ _ (i_core _ _ HI') 2 Hw) as [rec Hl].
  pose proof (k_bound _ _ _ _ (i_core _ _ HI')) as Hb. change (Nat.max 1 (c_threads queue)) with 1 in Hb.
  assert (El : live s' = [Coro 2 (CWait rec)]).
  { destruct (live s') as [|k [|k' r]]; [destruct Hl| |cbn in Hb; lia]. destruct Hl as [->|[]]. reflexivity. }
  destruct (queue_gen _ (proj1 (order_reachable queue z s' queue_wf (le_n 1) HR') Hact)) as [G|[r G]];
    unfold order_of in G; rewrite El in G; cbn [map] in G.
  - destruct (map r_node (recs (s_log s'))); discriminate.
  - destruct (recs (s_log s')) as [|r0 rs] eqn:Er; [cbn in G; discriminate|]. cbn in G. injection G as G _.
    assert (Hr : recorded_l (s_log s') 1) by (exists r0; rewrite Er; split; [left; reflexivity|exact G]).
    destruct (recorded_settled queue (s_log s') 1 (r_log queue z s' queue_wf HR') Hr) as [[o Ho]|[Hi|(p & [] & _)]].
    + exists o. apply J_end, Ho.
    + destruct (Hi (queue_inval 1)).
Qed.

Lemma queue_never z s : reachable queue z s -> jobs (trace s) <> [Begins 2].
Proof.
  intros HR EJ. assert (G : second_waits s).
  { destruct HR as [ls Er]. assert (X : forall ls s0, reachable queue z s0 -> second_waits s0 -> run_labels queue s0 ls = Some s -> second_waits s).
    { induction ls0 as [|l ls0 IH]; intros s0 HR0 H0 E0; [injection E0 as <-; exact H0|].
      cbn [run_labels] in E0. destruct (step queue s0 l) as [s1|] eqn:E1; [|discriminate].
      apply (IH s1); [eapply reachable_step; eassumption|eapply queue_step; eassumption|exact E0]. }
    apply (X ls (init z)); [exists []; reflexivity|intros Y; exfalso; apply Y; reflexivity|exact Er]. }
  change (J (s_log s) = [Begins 2]) in EJ.
  assert (Hb : In (EBegin 2) (s_log s)) by (apply J_begin; rewrite EJ; left; reflexivity).
  destruct (G) as [o Ho].
  - pose proof (k_fut _ _ _ _ (i_core _ _ (r_inv queue z s queue_wf HR)) 2) as K. intros F. rewrite F in K. cbn in K. tauto.
  - apply J_end in Ho. rewrite EJ in Ho. destruct Ho as [Ho|[]]. discriminate.
Qed.

(** lib (2) and lint (6) in the demo with its resources: nothing keeps them apart. *)
Lemma edges_within d (l : list (nid * nid)) : forallb (fun e => negb (ekind_eqb (e_kind e) AFTER) ||
     existsb (fun p => (fst p =? e_src e) && (snd p =? e_tgt e)) l) (d_edges d) = true ->
  forall a b, runs_after d a b -> In (a, b) l.
Proof.
  intros G a b H. rewrite forallb_forall in G. specialize (G _ H). cbn [e_kind ekind_eqb negb orb e_src e_tgt] in G.
  apply existsb_exists in G. destruct G as ([x y] & Hin & E). cbn [fst snd] in E. apply andb_true_iff in E.
  destruct E as [E1 E2]. apply Nat.eqb_eq in E1, E2. subst. exact Hin.
Qed.
Lemma demo_after : forall a b, runs_after demo_dag a b -> In (a, b) [(3, 2); (5, 3); (2, 1); (4, 1)].
Proof. apply edges_within. vm_compute. reflexivity. Qed.
Lemma demo_no_after v b : v = 6 \/ b = 6 -> runs_after demo_dag v b -> False.
Proof.
  intros Hv H. apply demo_after in H. cbn [In] in H.
  decompose [or] H; try contradiction; destruct Hv; congruence.
Qed.
Lemma demo_below6 v : clos_refl_trans nid (runs_after demo_dag) 6 v -> v = 6.
Proof.
  intros H. apply clos_rt_rt1n in H. inversion H as [|y w H1 _]; subst; [reflexivity|].
  destruct (demo_no_after 6 y (or_introl eq_refl) H1).
Qed.
Lemma demo_res6 : node_res (demo 2) 6 = [].
Proof. vm_compute. reflexivity. Qed.
Lemma team_of (c : config) (d : dag) : c_dag c = d -> node_res c 6 = [] ->
  (forall v b, v = 6 \/ b = 6 -> runs_after d v b -> False) ->
  (forall v, clos_refl_trans nid (runs_after d) 6 v -> v = 6) ->
  forall a b, In a [6; 2] -> In b [6; 2] -> a <> b -> ~ held_up_by c a b.
Proof.
  intros Ed Er Hno Hbelow a b Ha Hb Hne (v & Hv & H). rewrite Ed in *.
  assert (D : (a = 6 \/ b = 6) /\ (a = 6 -> v = 6)).
  { split; [|intros ->; exact (Hbelow v Hv)].
    destruct Ha as [Ha|[Ha|[]]]; [auto|]. destruct Hb as [Hb|[Hb|[]]]; [auto|congruence]. }
  destruct D as [D Dv]. destruct H as [H|[_ (r & H1 & H2)]].
  - apply (Hno v b); [|exact H]. destruct D as [D|D]; [left; exact (Dv D)|right; exact D].
  - destruct D as [D|D]; [rewrite (Dv D), Er in H1; exact H1|rewrite D, Er in H2; exact H2].
Qed.
Lemma demo_dag_eq : c_dag (demo 2) = demo_dag.
Proof. vm_compute. reflexivity. Qed.
Lemma demo_team : forall a b, In a [6; 2] -> In b [6; 2] -> a <> b -> ~ held_up_by (demo 2) a b.
Proof. exact (team_of (demo 2) demo_dag demo_dag_eq demo_res6 demo_no_after demo_below6). Qed.
Lemma demo_inval2 : Invalidated (demo 2) 2.
Proof.
  exists 1. split; [apply rt_step; unfold inval_by; vm_compute; tauto|]. exists "changed". reflexivity.
Qed.
Lemma demo_inval6 : Invalidated (demo 2) 6.
Proof. exists 6. split; [apply rt_refl|]. exists "changed". reflexivity. Qed.
Lemma demo_team_ids : incl [6; 2] (node_ids (c_dag (demo 2))).
Proof.
  intros x Hx. assert (G : forallb (fun y => existsb (Nat.eqb y) (node_ids (c_dag (demo 2)))) [6; 2] = true) by (vm_compute; reflexivity).
  rewrite forallb_forall in G. specialize (G x Hx). apply existsb_exists in G. destruct G as (y & Hy & E).
  apply Nat.eqb_eq in E. subst y. exact Hy.
Qed.
Lemma demo_executable : executable (demo 2).
Proof.
  split; [exact acyclic_demo|]. intros n Hn. split.
  - assert (G : forallb (node_has_job (demo 2)) (node_ids (c_dag (demo 2))) = true) by (vm_compute; reflexivity).
    rewrite forallb_forall in G. apply G, Hn.
  - cbn. unfold demo_inval. destruct (_ || _); discriminate.
Qed.
