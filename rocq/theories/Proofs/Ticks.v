(** Bounds on the number of ticks and of control-thread steps. *)
From Coq Require Import Lia String Permutation.
From Verif Require Import Model.Common Model.Records Model.Jobs Model.TaskSet Model.Dag
     Model.Sched Model.Exec Spec.Graph Spec.Trace
     Proofs.Sets Proofs.SchedFacts Proofs.InvalFacts Proofs.TraceFacts Proofs.ExecInv
     Proofs.ExecStep Proofs.ExecCtl Proofs.LogFacts Proofs.ExecProps Proofs.ExecProps2
     Proofs.StepCases Proofs.ExecProps3.
Open Scope nat_scope.
Open Scope list_scope.

(** What the code after a pass in the main loop does. *)
Inductive disp_case (c : config) (s : state) : state -> Prop :=
| DC_full s' : s' = set_pc s (Suspended PMain) -> s_coros s <> [] ->
    0 < c_threads c -> c_threads c <= List.length (s_coros s) -> disp_case c s s'
| DC_found m s' :
    s' = set_pc (set_coros (set_todo s (set_erase m (s_todo s))) (s_coros s ++ [Slot m (Coro m CFresh)]))
                (Suspended PMain) ->
    In m (s_todo s) -> ready (c_dag c) (s_ns s) (node_res c) (s_used s) m ->
    find_candidate (fuel_of c) (c_dag c) (s_ns s) (node_res c) (s_used s) (s_todo s) [] = Some (Some m) ->
    disp_case c s s'
| DC_none s' : s' = set_pc s (Suspended PMain) -> s_coros s <> [] ->
    (forall n, In n (s_todo s) -> ~ ready (c_dag c) (s_ns s) (node_res c) (s_used s) n) ->
    disp_case c s s'.

Lemma dispatch_cases c s kept s' : wf_dag (c_dag c) -> Inv c s -> s_pc s = Clean PMain kept [] ->
  s' = dispatch c (set_coros s (compact (s_coros s) kept)) ->
  disp_case c (set_coros s (compact (s_coros s) kept)) s'.
Proof.
  intros Hwf HI Epc E.
  assert (HI' : Inv c s').
  { apply (step_inv c Hwf s LCtl s' HI). cbn. unfold ctl. rewrite Epc, E. reflexivity. }
  pose proof (i_pc _ _ HI') as P'.
  pose proof (i_pc _ _ HI) as P. unfold pc_inv in P. rewrite Epc in P. destruct P as [A _].
  unfold act, live in A. rewrite Epc in A. cbn in A. rewrite app_nil_r in A.
  set (s1 := set_coros s (compact (s_coros s) kept)) in *.
  unfold dispatch in E.
  destruct ((c_threads c <=? List.length (s_coros s1)) && negb (c_threads c =? 0)) eqn:Elim.
  { apply andb_true_iff in Elim. destruct Elim as [E1 E2]. apply Nat.leb_le in E1.
    apply negb_true_iff, Nat.eqb_neq in E2. apply DC_full; [exact E| | |exact E1]; [|lia].
    intros H. rewrite H in E1. cbn in E1. lia. }
  destruct (find_candidate (fuel_of c) (c_dag c) (s_ns s1) (node_res c) (s_used s1) (s_todo s1) []) as [r|] eqn:Ef.
  2:{ subst s'. cbn in P'. destruct P'. }
  pose proof (find_candidate_sound _ _ _ _ _ _ _ _ Ef) as Hs. destruct r as [m|].
  - cbv zeta in E. change (s_coros (set_coros (set_todo s1 (set_erase m (s_todo s1))) (s_coros s1 ++ [Slot m (Coro m CFresh)])))
      with (s_coros s1 ++ [Slot m (Coro m CFresh)]) in E.
    assert (E' : s' = set_pc (set_coros (set_todo s1 (set_erase m (s_todo s1))) (s_coros s1 ++ [Slot m (Coro m CFresh)])) (Suspended PMain)).
    { destruct (s_coros s1 ++ [Slot m (Coro m CFresh)]) eqn:E2; [destruct (s_coros s1); discriminate|exact E]. }
    eapply DC_found; [exact E'| |apply Hs|exact Ef].
    (* the candidate is in to_process *)
    pose proof (find_candidate_sound _ _ _ _ _ _ _ _ Ef) as [[[Hst Hdn] _] [n0 [Hn0 Hpath]]].
    assert (Hin0 : In n0 (node_ids (c_dag c))) by (eapply act_where; [exact A|]; auto).
    assert (Hm : In m (node_ids (c_dag c))).
    { clear -Hpath Hin0 Hwf. apply clos_rt_rtn1 in Hpath.
      destruct Hpath as [|y z Hyz _]; [exact Hin0|]. apply Hwf in Hyz. apply Hyz. }
    eapply act_where in Hm; [|exact A]. destruct Hm as [H|[H|H]]; [exact H|exfalso|exfalso].
    + pose proof (i_pc _ _ HI) as P. unfold pc_inv in P. rewrite Epc in P.
      destruct P as [_ [_ [Pk _]]]. apply in_map_iff in H. destruct H as [[m' st] [Em H]]. cbn in Em. subst m'.
      destruct (Pk _ H) as [rec Erec]. cbn in Erec. subst st.
      pose proof (w_flags _ _ _ _ _ _ (a_wait _ _ _ _ _ _ _ _ A _ _ H)) as F. unfold flags in F.
      change (s_ns s1) with (s_ns s) in Hst. congruence.
    + apply in_map_iff in H. destruct H as [r [<- H]].
      destruct (a_rec _ _ _ _ _ _ _ _ A r H) as [F _]. change (s_ns s1) with (s_ns s) in Hdn. congruence.
  - cbv zeta in E. destruct (s_coros s1) eqn:E2.
    + subst s'. cbn in P'. destruct P'.
    + apply DC_none; [exact E|rewrite E2; discriminate|]. intros n Hn Hr. destruct (Hs n Hn Hr).
Qed.

Lemma filter_rev_length {A} (f : A -> bool) l : List.length (filter f (rev l)) = List.length (filter f l).
Proof.
  induction l as [|x l IH]; [reflexivity|]. cbn. rewrite filter_app, app_length, IH. cbn.
  destruct (f x); cbn; lia.
Qed.

Definition tmo (log : list event) : nat := List.length (filter is_timeout log).
Arguments tmo : simpl never.

Lemma timeouts_log s : timeouts (trace s) = tmo (s_log s).
Proof. unfold timeouts, tmo, trace. apply filter_rev_length. Qed.

Definition phi (s : state) : nat := 2 * List.length (s_todo s) + List.length (live s).

Definition tick_inv (c : config) (t : nat) (s : state) : Prop :=
  let N := List.length (node_ids (c_dag c)) in
  let W := tmo (s_log s) in
  match s_pc s with
  | Created => t = 0
  | Suspended ph => t + phi s <= 2 * N + W /\ (ph = PMain -> s_coros s <> [])
  | Clean ph kept rest =>
      t + phi s <= 2 * N + W + (if List.length rest =? List.length (s_coros s) then 1 else 0)
      /\ (ph = PDrain -> s_coros s <> [])
  | Bad _ => t <= 2 * N + W + 2
  | _ => t <= 2 * N + W + 1
  end.

Lemma erase_length x l : sorted l -> In x l -> S (List.length (set_erase x l)) = List.length l.
Proof.
  intros Hs Hx. pose proof (Permutation_set_erase x l) as H.
  apply sorted_NoDup in Hs. specialize (H Hs Hx). apply Permutation_length in H. cbn in H. lia.
Qed.

Lemma tick_main c t s : Top c s -> s_todo s <> [] -> 
  t + (2 * List.length (s_todo s) + List.length (s_coros s)) <= 2 * List.length (node_ids (c_dag c)) + tmo (s_log s) ->
  tick_inv c (S t) (set_pc (emit s (EOnTick (s_erec s))) (Clean PMain [] (s_coros s))).
Proof.
  intros T Ht H. unfold tick_inv, phi, live. cbn. rewrite map_length, Nat.eqb_refl. split; [|discriminate].
  unfold tmo in *. cbn. lia.
Qed.

Lemma tick_inv_step c t s l s' : wf_dag (c_dag c) -> Inv c s -> tick_inv c t s -> step c s l = Some s' ->
  tick_inv c (t + (if is_tick l then 1 else 0)) s'.
Proof.
  intros Hwf HI T E. assert (HI' : Inv c s') by (eapply step_inv; eassumption).
  set (N := List.length (node_ids (c_dag c))).
  assert (Bound : match s_pc s with Bad _ => t <= 2 * N + tmo (s_log s) + 2 | _ => t <= 2 * N + tmo (s_log s) + (if match s_pc s with Suspended _ | Created => true | _ => false end then 0 else 1) end).
  { unfold tick_inv in T. destruct (s_pc s); fold N in T; try lia.
    destruct T as [T _]. destruct (_ =? _) in T; lia. }
  assert (Hmain : s_pc s = Suspended PMain -> tick_inv c (t + 1) (main_top s)).
  { intros Epc. unfold tick_inv in T. rewrite Epc in T. destruct T as [T1 T2]. fold N in T1.
    unfold phi, live in T1. rewrite Epc, map_length in T1. specialize (T2 eq_refl).
    unfold main_top. destruct (s_todo s) eqn:Et.
    - unfold drain_top. destruct (s_coros s) eqn:Ec; [destruct (T2 eq_refl)|].
      unfold tick_inv, phi, live. cbn -[Nat.mul Nat.eqb]. rewrite Et, Ec, map_length. cbn [List.length].
      rewrite Nat.eqb_refl. fold N. unfold tmo in *. cbn -[Nat.mul]. split; [cbn [List.length] in T1; lia|discriminate].
    - unfold tick_inv, phi, live. cbn -[Nat.mul Nat.eqb]. rewrite Et, map_length. cbn [List.length]. rewrite Nat.eqb_refl. fold N.
      split; [|discriminate]. unfold tmo in *. cbn -[Nat.mul Nat.eqb]. cbn [List.length] in T1; lia. }
  assert (Hdrain : s_pc s = Suspended PDrain -> tick_inv c (t + 1) (drain_top s)).
  { intros Epc. unfold tick_inv in T. rewrite Epc in T. destruct T as [T1 T2]. fold N in T1.
    unfold phi, live in T1. rewrite Epc, map_length in T1. unfold drain_top.
    destruct (s_coros s) eqn:Ec.
    - unfold tick_inv. cbn -[Nat.mul]. fold N. unfold tmo in *. cbn -[Nat.mul]. lia.
    - unfold tick_inv, phi, live. cbn -[Nat.mul Nat.eqb]. rewrite Ec, map_length. cbn [List.length].
      rewrite Nat.eqb_refl. fold N. unfold tmo in *. cbn [List.length] in T1. cbn -[Nat.mul]. split; [cbn [List.length] in T1; lia|discriminate]. }
  assert (Hstart : s_pc s = Created -> tick_inv c 1 (start c s)).
  { intros Epc. destruct (start_spec c Hwf s HI Epc) as [R [_ [Rc _]]].
    inversion R as [? ? cyc L1 L2 L3|? ? m pre post L2 L1 L3 L4 L5 L6 L7|? ? m pre post L2 L1 L3 L4 L5 L6 L7
                 |? ? s1 evd todo Es T1 El Ep Et Hso Ec]; subst.
    - unfold tick_inv. rewrite L2. lia.
    - unfold tick_inv. rewrite L2. lia.
    - unfold tick_inv. rewrite L2. lia.
    - rewrite Es. unfold main_top, drain_top. rewrite Ec.
      pose proof (t_act _ _ T1) as A. pose proof (Permutation_length (a_perm _ _ _ _ _ _ _ _ A)) as Hl.
      rewrite Ec in Hl. cbn in Hl. rewrite app_length, map_length in Hl.
      destruct (s_todo s1) eqn:Et.
      + unfold tick_inv. cbn. lia.
      + unfold tick_inv, phi, live. cbn -[Nat.mul]. rewrite Et, Ec. cbn [List.length map]. fold N. fold N in Hl.
        split; [|discriminate]. cbn -[Nat.mul]. cbn [List.length] in Hl. lia. }
  destruct l; cbn [is_tick]; rewrite ?Nat.add_0_r; cbn [step] in E.
  - (* LTick *) unfold tick in E. destruct (s_pc s) as [|ph| | | | | | |] eqn:Epc; try discriminate.
    + inversion E; subst. unfold tick_inv in T. rewrite Epc in T. subst t. apply Hstart. reflexivity.
    + destruct ph; inversion E; subst; [apply Hmain|apply Hdrain]; reflexivity.
    + inversion E; subst. unfold tick_inv. cbn -[Nat.mul]. fold N. lia.
    + inversion E; subst. unfold tick_inv. cbn -[Nat.mul]. fold N. lia.
  - (* LDestroy *) unfold tick_inv in *.
    destruct (s_pc s); try discriminate; inversion E; subst; unfold tmo in *; cbn -[Nat.mul]; fold N; lia.
  - (* LCtl *)
    destruct (ctl_cases c s s' HI E) as
      [ph kept sl rest n s' Epc Esl _ Es|ph kept sl rest n s' Epc Esl _ _ Es
      |ph kept sl rest n s1 s' Epc Esl _ _ Es1 Es|ph kept sl rest n rec s' Epc Esl _ Es
      |ph kept sl rest n rec s' Epc Esl _ Es|ph kept sl rest n rec o s1 s2 s' Epc Esl _ Es1 Es2 Es
      |kept s1 s' Epc Es1 Es|kept s1 s' Epc Es1 Es|e s' Epc Es|e sl rest s' Epc _ Es|s' Epc Es|sl rest s' Epc _ Es];
      pose proof (i_pc _ _ HI) as P; unfold pc_inv in P; rewrite Epc in P;
      unfold tick_inv in T; rewrite Epc in T; fold N in T; unfold phi, live in T; rewrite ?Epc in T.
    + subst s'. destruct T as [T1 T2]. unfold tick_inv, phi, live. cbn -[Nat.mul Nat.eqb]. fold N.
      split; [|exact T2]. rewrite app_length, map_length in *. cbn [List.length] in *.
      destruct P as [_ [_ [_ [P _]]]]. cbn [List.length] in P. unfold tmo in *. cbn -[Nat.mul Nat.eqb].
      destruct (S (List.length rest) =? List.length (s_coros s)) eqn:E1, (List.length rest =? List.length (s_coros s)) eqn:E2;
        rewrite ?Nat.eqb_eq, ?Nat.eqb_neq in *; lia.
    + subst s'. destruct T as [T1 T2]. unfold tick_inv, phi, live. cbn -[Nat.mul Nat.eqb]. fold N.
      split; [|exact T2]. rewrite app_length, map_length in *. cbn [List.length] in *.
      destruct P as [_ [_ [_ [P _]]]]. cbn [List.length] in P. unfold tmo in *. cbn -[Nat.mul Nat.eqb].
      destruct (S (List.length rest) =? List.length (s_coros s)) eqn:E1, (List.length rest =? List.length (s_coros s)) eqn:E2;
        rewrite ?Nat.eqb_eq, ?Nat.eqb_neq in *; lia.
    + subst s' s1. destruct T as [T1 T2]. unfold tick_inv, phi, live. cbn -[Nat.mul Nat.eqb]. fold N.
      split; [|exact T2]. rewrite app_length, map_length in *. cbn [List.length] in *.
      rewrite map_length in *. unfold tmo in *. cbn -[Nat.mul Nat.eqb]. exact T1.
    + subst s'. destruct T as [T1 T2]. unfold tick_inv, phi, live. cbn -[Nat.mul Nat.eqb]. rewrite Epc. fold N.
      split; [|exact T2]. unfold tmo in *. cbn -[Nat.mul Nat.eqb]. exact T1.
    + subst s'. destruct T as [T1 T2]. unfold tick_inv, phi, live. cbn -[Nat.mul Nat.eqb]. fold N.
      split; [|exact T2]. rewrite !app_length, map_length in *. cbn [List.length] in *.
      destruct P as [_ [_ [_ [P _]]]]. cbn [List.length] in P. unfold tmo in *. cbn -[Nat.mul Nat.eqb].
      destruct (S (List.length rest) =? List.length (s_coros s)) eqn:E1, (List.length rest =? List.length (s_coros s)) eqn:E2;
        rewrite ?Nat.eqb_eq, ?Nat.eqb_neq in *; lia.
    + assert (Ec : s_coros s' = s_coros s /\ s_todo s' = s_todo s /\ tmo (s_log s') = tmo (s_log s) /\ s_pc s' = Clean ph kept rest).
      { subst s' s1 s2. destruct (negb _); cbn; auto. }
      destruct Ec as [Ec [Et [El Ep]]]. destruct T as [T1 T2]. unfold tick_inv, phi, live. rewrite Ep, Ec, Et, El. fold N.
      split; [|exact T2]. rewrite app_length, map_length in *. cbn [List.length] in *.
      destruct P as [_ [_ [_ [P _]]]]. cbn [List.length] in P.
      destruct (S (List.length rest) =? List.length (s_coros s)) eqn:E1, (List.length rest =? List.length (s_coros s)) eqn:E2;
        rewrite ?Nat.eqb_eq, ?Nat.eqb_neq in *; lia.
    + subst s1. destruct T as [T1 T2]. cbn [List.length map] in T1. rewrite app_nil_r in T1.
      destruct P as [A [_ [_ [P2 _]]]]. cbn [List.length] in P2.
      assert (Hc : List.length (compact (s_coros s) kept) = List.length kept).
      { rewrite <- (map_length sl_coro), compact_coros; [reflexivity|lia]. }
      assert (Hcn : s_coros s <> [] -> (0 =? List.length (s_coros s)) = false).
      { intros H. apply Nat.eqb_neq. destruct (s_coros s); [congruence|discriminate]. }
      destruct (dispatch_cases c s kept s' Hwf HI Epc Es) as [s' E1 E2 E3 E4|m s' E1 E2 E3 E4|s' E1 E2 E3].
      * clear Es; subst s'. unfold tick_inv, phi, live. cbn -[Nat.mul Nat.eqb]. fold N. rewrite map_length, Hc.
        split; [|intros _; exact E2]. cbn [s_coros set_coros] in E2.
        destruct (s_coros s) eqn:Ecs; [destruct E2; reflexivity|]. cbn in T1. lia.
      * clear Es; subst s'. cbn [s_todo set_coros] in E2. unfold act in A.
        pose proof (erase_length m (s_todo s) (a_sorted _ _ _ _ _ _ _ _ A) E2) as El.
        unfold tick_inv, phi, live. cbn -[Nat.mul Nat.eqb]. fold N. rewrite map_length, app_length, Hc. cbn [List.length].
        split; [|intros _ H; destruct (compact (s_coros s) kept); discriminate].
        unfold set_erase, nid in *. destruct (0 =? List.length (s_coros s)); lia.
      * clear Es; subst s'. unfold tick_inv, phi, live. cbn -[Nat.mul Nat.eqb]. fold N. rewrite map_length, Hc.
        split; [|intros _; exact E2]. cbn [s_coros set_coros] in E2.
        destruct (s_coros s) eqn:Ecs; [destruct E2; reflexivity|]. cbn in T1. lia.
    + subst s1 s'. destruct T as [T1 T2]. cbn [List.length map] in T1. rewrite app_nil_r in T1.
      destruct P as [A [_ [_ [P2 _]]]]. cbn [List.length] in P2.
      assert (Hc : List.length (compact (s_coros s) kept) = List.length kept).
      { rewrite <- (map_length sl_coro), compact_coros; [reflexivity|lia]. }
      unfold tick_inv, phi, live. cbn -[Nat.mul Nat.eqb]. fold N. rewrite map_length, Hc.
      split; [|discriminate]. specialize (T2 eq_refl). destruct (s_coros s); [congruence|]. cbn in T1. lia.
    + subst s'. unfold tick_inv. cbn -[Nat.mul]. fold N. exact T.
    + subst s'. unfold tick_inv. cbn -[Nat.mul]. fold N. exact T.
    + subst s'. unfold tick_inv, tmo in *. cbn -[Nat.mul]. fold N. exact T.
    + subst s'. unfold tick_inv. cbn -[Nat.mul]. fold N. exact T.
  - (* LLaunchFail *)
    destruct (launchfail_cases c s s' HI E) as [ph [kept [sl [rest [n [Epc [_ [_ [Ep [El _]]]]]]]]]].
    unfold tick_inv. rewrite Ep, El. unfold tmo in *. cbn -[Nat.mul]. fold N. rewrite Epc in Bound. lia.
  - (* LVisThrow: the events of the step up to the throw *)
    assert (Hpc : exists es rest, s' = set_pc (emits s es) (Unwind ExcVisitor rest)).
    { destruct (match s_pc s with Created | Suspended _ => tick c s | Clean _ _ _ => ctl c s true | _ => None end) as [s1|]; [|discriminate].
      unfold visitor_throws in E. destruct (cut_at k _) as [es|]; [|discriminate]. inversion E. eauto. }
    destruct Hpc as [es [rest ->]]. unfold tick_inv. cbn -[Nat.mul emits].
    assert (El : s_log (set_pc (emits s es) (Unwind ExcVisitor rest)) = rev es ++ s_log s) by (rewrite emits_eq; destruct s; reflexivity).
    cbn [s_log set_pc] in El |- *. rewrite El. unfold tmo in *. rewrite filter_app, app_length. fold N.
    destruct (s_pc s); try discriminate E; try lia.
  - destruct (s_fut s n); try discriminate. inversion E; subst. unfold tick_inv, phi, live, tmo in *. cbn -[Nat.mul Nat.eqb]. exact T.
  - destruct (s_fut s n); try discriminate. inversion E; subst. unfold tick_inv, phi, live, tmo in *. cbn -[Nat.mul Nat.eqb]. exact T.
  - inversion E; subst. unfold tick_inv, phi, live, tmo in *. cbn -[Nat.mul Nat.eqb]. exact T.
Qed.

Lemma tick_inv_run c : wf_dag (c_dag c) -> forall ls t s s', Inv c s -> tick_inv c t s ->
  run_labels c s ls = Some s' -> tick_inv c (t + ticks ls) s'.
Proof.
  intros Hwf. induction ls as [|l ls IH]; intros t s s' HI T E.
  - inversion E; subst. unfold ticks; cbn. rewrite Nat.add_0_r. exact T.
  - cbn in E. destruct (step c s l) as [s1|] eqn:E1; [|discriminate].
    assert (HI1 : Inv c s1) by (eapply step_inv; eassumption).
    pose proof (tick_inv_step c t s l s1 Hwf HI T E1) as T1.
    specialize (IH _ _ _ HI1 T1 E).
    replace (t + ticks (l :: ls)) with (t + (if is_tick l then 1 else 0) + ticks ls); [exact IH|].
    unfold ticks. cbn. destruct (is_tick l); cbn; lia.
Qed.

Lemma ticks_bounded : forall c z ls s,
  wf_dag (c_dag c) -> run_labels c (init z) ls = Some s -> (forall b, s_pc s <> Bad b) ->
  ticks ls <= 2 * List.length (node_ids (c_dag c)) + 1 + timeouts (trace s).
Proof.
  intros c z ls s Hwf E Hb.
  pose proof (tick_inv_run c Hwf ls 0 (init z) s (inv_init c z) eq_refl E) as T. cbn in T.
  rewrite timeouts_log. unfold tick_inv in T.
  destruct (s_pc s) eqn:Epc; try lia.
  - destruct T as [T _]. destruct (_ =? _) in T; lia.
  - destruct (Hb b eq_refl).
Qed.

Lemma ticks_all c z ls s :
  wf_dag (c_dag c) -> run_labels c (init z) ls = Some s ->
  ticks ls <= 2 * List.length (node_ids (c_dag c)) + 2 + tmo (s_log s).
Proof.
  intros Hwf E.
  pose proof (tick_inv_run c Hwf ls 0 (init z) s (inv_init c z) eq_refl E) as T. cbn in T.
  unfold tick_inv in T. destruct (s_pc s) eqn:Epc; try lia.
  destruct T as [T _]. destruct (_ =? _) in T; lia.
Qed.

(** * The control thread's steps *)

Definition is_work (e : event) : bool :=
  match e with ELaunch _ | EBegin _ | EAfterRun _ _ _ => true | _ => false end.
Definition work (log : list event) : nat := List.length (filter is_work log) + tmo log.
Arguments work : simpl never.

Lemma work_cons e l : work (e :: l) = (if is_work e then 1 else 0) + (if is_timeout e then 1 else 0) + work l.
Proof. unfold work, tmo. cbn. destruct (is_work e), (is_timeout e); cbn; lia. Qed.

Lemma work_app a l : work l <= work (a ++ l).
Proof. unfold work, tmo. rewrite !filter_app, !app_length. lia. Qed.

Definition launched_n (e : event) : list nid := match e with ELaunch n => [n] | _ => [] end.
Definition begun_n (e : event) : list nid := match e with EBegin n => [n] | _ => [] end.

Lemma launched_log c log : log_ok c log ->
  NoDup (flat_map launched_n log) /\ incl (flat_map launched_n log) (node_ids (c_dag c)).
Proof.
  induction log as [|e log IH]; intros L; [split; [constructor|intros x []]|].
  destruct L as [[He _] L]. destruct (IH L) as [I1 I2].
  assert (Hin : forall n, In n (flat_map launched_n log) -> In (ELaunch n) log).
  { intros n Hn. apply in_flat_map in Hn. destruct Hn as [e' [H1 H2]]. destruct e'; cbn in H2; try contradiction.
    destruct H2 as [->|[]]. exact H1. }
  destruct e; cbn [flat_map launched_n app]; try (split; assumption). cbn [ev_cond] in He. split.
  - constructor; [|exact I1]. intros H. apply Hin in H. tauto.
  - intros x [<-|H]; [tauto|apply I2, H].
Qed.

Lemma begun_log c log : log_ok c log ->
  NoDup (flat_map begun_n log) /\ incl (flat_map begun_n log) (node_ids (c_dag c)).
Proof.
  induction log as [|e log IH]; intros L; [split; [constructor|intros x []]|].
  destruct L as [[He _] L]. destruct (IH L) as [I1 I2].
  assert (Hin : forall n, In n (flat_map begun_n log) -> In (EBegin n) log).
  { intros n Hn. apply in_flat_map in Hn. destruct Hn as [e' [H1 H2]]. destruct e'; cbn in H2; try contradiction.
    destruct H2 as [->|[]]. exact H1. }
  destruct e; cbn [flat_map begun_n app]; try (split; assumption). cbn [ev_cond] in He. split.
  - constructor; [|exact I1]. intros H. apply Hin in H. tauto.
  - intros x [<-|H]; [|apply I2, H]. eapply launch_ids; [exact L|apply He].
Qed.

Lemma work_bound c log : log_ok c log -> work log <= 3 * List.length (node_ids (c_dag c)) + tmo log.
Proof.
  intros L. destruct (launched_log c log L) as [L1 L2]. destruct (begun_log c log L) as [B1 B2].
  destruct (recs_nodup c log L) as [R1 R2].
  pose proof (NoDup_incl_length L1 L2) as HL. pose proof (NoDup_incl_length B1 B2) as HB.
  pose proof (NoDup_incl_length R1 R2) as HR. rewrite map_length in HR.
  assert (E : List.length (filter is_work log) = List.length (flat_map launched_n log)
              + List.length (flat_map begun_n log) + List.length (recs log)).
  { clear. induction log as [|e log IH]; [reflexivity|].
    rewrite recs_cons, app_length. destruct e; cbn in *; lia. }
  unfold work. lia.
Qed.

Definition width (c : config) : nat := Nat.max 1 (c_threads c).
Arguments width : simpl never.

Definition move_inv (c : config) (t m : nat) (s : state) : Prop :=
  let E := work (s_log s) + 2 * t in
  match s_pc s with
  | Created => m = 0
  | Suspended _ => m <= E
  | Clean _ _ _ => m + 1 <= E
  | Unwind _ rest => m + 1 + List.length rest <= E + width c + 2
  | Failed _ | Finished | Bad _ => m <= E + width c + 2
  | Destroying rest => m + 1 + List.length rest <= E + 2 * width c + 4
  | Destroyed => m <= E + 2 * width c + 4
  end.

Lemma move_inv_step c t m s l s' : wf_dag (c_dag c) -> Inv c s -> move_inv c t m s -> step c s l = Some s' ->
  move_inv c (t + (if is_tick l then 1 else 0)) (m + (if env_label l then 0 else 1)) s'.
Proof.
  intros Hwf HI M E. assert (HI' : Inv c s') by (eapply step_inv; eassumption).
  pose proof (k_bound _ _ _ _ (i_core _ _ HI')) as Hlen'.
  assert (Htop : forall s, tick c s = Some s' \/ True -> True) by auto. clear Htop.
  destruct l; cbn [is_tick env_label]; rewrite ?Nat.add_0_r; cbn [step] in E.
  - (* LTick *)
    assert (Hd : forall s0, work (s_log s0) = work (s_log s) -> m <= work (s_log s) + 2 * t ->
              move_inv c (t + 1) (m + 1) (drain_top s0)).
    { intros s0 Ew Hm. unfold drain_top. destruct (s_coros s0); unfold move_inv; cbn [s_pc set_pc s_log emit].
      - unfold emit; cbn [s_log set_log]. rewrite work_cons, Ew. cbn [is_work is_timeout]. lia.
      - rewrite Ew. lia. }
    assert (Hm : forall s0, work (s_log s0) = work (s_log s) -> m <= work (s_log s) + 2 * t ->
              move_inv c (t + 1) (m + 1) (main_top s0)).
    { intros s0 Ew Hm. unfold main_top. destruct (s_todo s0); [apply Hd; assumption|].
      unfold move_inv, emit. cbn [s_pc set_pc s_log set_log]. rewrite work_cons, Ew. cbn [is_work is_timeout]. lia. }
    unfold tick in E. unfold move_inv in M. destruct (s_pc s) as [|ph| | | | | | |] eqn:Epc; try discriminate.
    + inversion E; subst s' m. destruct (start_spec c Hwf s HI Epc) as [R [_ [Rc _]]].
      inversion R as [? ? cyc L1 L2 L3|? ? m pre post L2 L1 L3 L4 L5 L6 L7|? ? m pre post L2 L1 L3 L4 L5 L6 L7
                 |? ? s1 evd todo Es T1 El Ep Et Hso Ec]; subst.
      * unfold move_inv. rewrite L2. lia.
      * unfold move_inv. rewrite L2. lia.
      * unfold move_inv. rewrite L2. lia.
      * rewrite Es. unfold main_top, drain_top. rewrite Ec.
        destruct (s_todo s1); unfold move_inv; cbn [s_pc set_pc]; lia.
    + destruct ph; inversion E; subst; [apply Hm|apply Hd]; auto.
    + inversion E; subst. unfold move_inv. cbn [s_pc set_pc s_log]. lia.
    + inversion E; subst. unfold move_inv. cbn [s_pc set_pc s_log]. lia.
  - (* LDestroy *)
    pose proof (i_pc _ _ HI) as P. unfold pc_inv in P. unfold move_inv in *. unfold live in Hlen'.
    destruct (s_pc s); try discriminate; inversion E; subst; cbn [s_pc set_pc s_log] in *;
      unfold live in Hlen'; cbn [s_pc set_pc] in Hlen'; rewrite map_length in Hlen'; fold (width c) in Hlen'; lia.
  - (* LCtl *)
    destruct (ctl_cases c s s' HI E) as
      [ph kept sl rest n s' Epc Esl _ Es|ph kept sl rest n s' Epc Esl _ _ Es
      |ph kept sl rest n s1 s' Epc Esl _ _ Es1 Es|ph kept sl rest n rec s' Epc Esl _ Es
      |ph kept sl rest n rec s' Epc Esl _ Es|ph kept sl rest n rec o s1 s2 s' Epc Esl _ Es1 Es2 Es
      |kept s1 s' Epc Es1 Es|kept s1 s' Epc Es1 Es|e s' Epc Es|e sl rest s' Epc _ Es|s' Epc Es|sl rest s' Epc _ Es];
      unfold move_inv in M; rewrite Epc in M.
    + subst s'. unfold move_inv. cbn. rewrite !work_cons. cbn [is_work is_timeout]. lia.
    + subst s'. unfold move_inv. cbn. rewrite !work_cons. cbn [is_work is_timeout]. lia.
    + subst s' s1. unfold move_inv. cbn. rewrite !work_cons. cbn [is_work is_timeout]. lia.
    + subst s'. unfold move_inv. cbn. rewrite Epc, !work_cons. cbn [is_work is_timeout]. lia.
    + subst s'. unfold move_inv. cbn. rewrite !work_cons. cbn [is_work is_timeout]. lia.
    + assert (Ep : s_pc s' = Clean ph kept rest /\ exists er x, s_log s' = EAfterRun er (finish_record rec (run_lambda o) (s_clock s)) x :: ERunLog n (rr_log (run_lambda o)) :: s_log s).
      { subst s' s1 s2. destruct (negb _); cbn; eauto. }
      destruct Ep as [Ep [er [x El]]]. unfold move_inv. rewrite Ep, El, !work_cons. cbn [is_work is_timeout]. lia.
    + subst s1. destruct (dispatch_cases c s kept s' Hwf HI Epc Es) as [s' E1 E2 E3 E4|m0 s' E1 E2 E3 E4|s' E1 E2 E3];
        rewrite E1; unfold move_inv; cbn; lia.
    + subst s1 s'. unfold move_inv; cbn; lia.
    + subst s'. unfold move_inv. cbn. cbn [List.length] in M. lia.
    + subst s'. unfold move_inv. cbn. cbn [List.length] in M. lia.
    + subst s'. unfold move_inv. cbn. rewrite !work_cons. cbn [is_work is_timeout]. cbn [List.length] in M. lia.
    + subst s'. unfold move_inv. cbn. cbn [List.length] in M. lia.
  - (* LLaunchFail *)
    destruct (launchfail_cases c s s' HI E) as [ph [kept [sl [rest [n [Epc [_ [_ [Ep [El _]]]]]]]]]].
    unfold move_inv in *. rewrite Ep, El, work_cons. rewrite Epc in M. cbn [is_work is_timeout].
    unfold live in Hlen'. rewrite Ep, map_length in Hlen'. fold (width c) in Hlen'. lia.
  - (* LVisThrow *)
    assert (Hpc : exists es rest, s' = set_pc (emits s es) (Unwind ExcVisitor rest)).
    { destruct (match s_pc s with Created | Suspended _ => tick c s | Clean _ _ _ => ctl c s true | _ => None end) as [s1|]; [|discriminate].
      unfold visitor_throws in E. destruct (cut_at k _) as [es|]; [|discriminate]. inversion E. eauto. }
    destruct Hpc as [es [rest Es]].
    assert (El : s_log s' = rev es ++ s_log s) by (rewrite Es, emits_eq; destruct s; reflexivity).
    assert (Ep : s_pc s' = Unwind ExcVisitor rest) by (rewrite Es; reflexivity).
    unfold move_inv. rewrite Ep, El. pose proof (work_app (rev es) (s_log s)).
    unfold live in Hlen'. rewrite Ep, map_length in Hlen'. fold (width c) in Hlen'.
    unfold move_inv in M. destruct (s_pc s); try discriminate E; lia.
  - destruct (s_fut s n); try discriminate. inversion E; subst.
    pose proof (work_app [EBegin n] (s_log s)) as H. cbn [app] in H.
    unfold move_inv in *. cbn. destruct (s_pc s); lia.
  - destruct (s_fut s n); try discriminate. inversion E; subst.
    pose proof (work_app [EEnd n o] (s_log s)) as H. cbn [app] in H.
    unfold move_inv in *. cbn. destruct (s_pc s); lia.
  - inversion E; subst. exact M.
Qed.

Lemma move_inv_run c : wf_dag (c_dag c) -> forall ls t m s s', Inv c s -> move_inv c t m s ->
  run_labels c s ls = Some s' -> move_inv c (t + ticks ls) (m + moves ls) s'.
Proof.
  intros Hwf. induction ls as [|l ls IH]; intros t m s s' HI T E.
  - inversion E; subst. unfold ticks, moves; cbn. rewrite !Nat.add_0_r. exact T.
  - cbn in E. destruct (step c s l) as [s1|] eqn:E1; [|discriminate].
    assert (HI1 : Inv c s1) by (eapply step_inv; eassumption).
    pose proof (move_inv_step c t m s l s1 Hwf HI T E1) as T1.
    specialize (IH _ _ _ _ HI1 T1 E).
    replace (t + ticks (l :: ls)) with (t + (if is_tick l then 1 else 0) + ticks ls).
    2:{ unfold ticks. cbn. destruct (is_tick l); cbn; lia. }
    replace (m + moves (l :: ls)) with (m + (if env_label l then 0 else 1) + moves ls); [exact IH|].
    unfold moves. cbn. destruct (env_label l); cbn; lia.
Qed.

Lemma moves_bounded : forall c z ls s,
  wf_dag (c_dag c) -> run_labels c (init z) ls = Some s ->
  moves ls <= 7 * List.length (node_ids (c_dag c)) + 3 * timeouts (trace s)
              + 2 * Nat.max 1 (c_threads c) + 8.
Proof.
  intros c z ls s Hwf E.
  assert (HR : reachable c z s) by (exists ls; exact E).
  pose proof (move_inv_run c Hwf ls 0 0 (init z) s (inv_init c z) eq_refl E) as M. cbn [Nat.add] in M.
  pose proof (ticks_all c z ls s Hwf E) as T.
  pose proof (work_bound c (s_log s) (r_log c z s Hwf HR)) as W.
  rewrite timeouts_log. fold (width c). unfold move_inv in M. destruct (s_pc s); lia.
Qed.

(** * Events are only added *)

Lemma step_log c s l s' : wf_dag (c_dag c) -> Inv c s -> step c s l = Some s' ->
  exists new, s_log s' = new ++ s_log s.
Proof.
  intros Hwf HI E.
  assert (Hd : forall s0 new, s_log s0 = new ++ s_log s -> exists new, s_log (drain_top s0) = new ++ s_log s).
  { intros s0 new H. unfold drain_top. destruct (s_coros s0); cbn; rewrite H; [exists (EAfterExec (s_erec s0) :: new)|exists new]; reflexivity. }
  assert (Hm : forall s0 new, s_log s0 = new ++ s_log s -> exists new, s_log (main_top s0) = new ++ s_log s).
  { intros s0 new H. unfold main_top. destruct (s_todo s0); [eapply Hd; eauto|]. cbn. rewrite H.
    exists (EOnTick (s_erec s0) :: new). reflexivity. }
  destruct l; cbn [step] in E.
  - unfold tick in E. destruct (s_pc s) as [|ph| | | | | | |] eqn:Epc; try discriminate.
    + inversion E; subst s'. pose proof (i_pc _ _ HI) as P. unfold pc_inv in P. rewrite Epc in P.
      destruct P as [_ [_ [_ [_ [_ [_ ->]]]]]]. eexists. rewrite app_nil_r. reflexivity.
    + destruct ph; inversion E; subst; [apply (Hm s [])|apply (Hd s [])]; reflexivity.
    + inversion E; subst. exists []. reflexivity.
    + inversion E; subst. exists []. reflexivity.
  - destruct (s_pc s); try discriminate; inversion E; subst; exists []; reflexivity.
  - destruct (ctl_cases c s s' HI E) as
      [ph kept sl rest n s' Epc Esl _ Es|ph kept sl rest n s' Epc Esl _ _ Es
      |ph kept sl rest n s1 s' Epc Esl _ _ Es1 Es|ph kept sl rest n rec s' Epc Esl _ Es
      |ph kept sl rest n rec s' Epc Esl _ Es|ph kept sl rest n rec o s1 s2 s' Epc Esl _ Es1 Es2 Es
      |kept s1 s' Epc Es1 Es|kept s1 s' Epc Es1 Es|e s' Epc Es|e sl rest s' Epc _ Es|s' Epc Es|sl rest s' Epc _ Es].
    + subst s'. cbn. eexists [_; _]. reflexivity.
    + subst s'. cbn. eexists [_; _]. reflexivity.
    + subst s' s1. cbn. eexists [_; _]. reflexivity.
    + subst s'. cbn. eexists [_]. reflexivity.
    + subst s'. cbn. eexists [_]. reflexivity.
    + subst s' s1 s2. destruct (negb _); cbn; eexists [_; _]; reflexivity.
    + subst s1. destruct (dispatch_cases c s kept s' Hwf HI Epc Es) as [s' E1 E2 E3 E4|m0 s' E1 E2 E3 E4|s' E1 E2 E3];
        rewrite E1; exists []; reflexivity.
    + subst s1 s'. exists []. reflexivity.
    + subst s'. exists []. reflexivity.
    + subst s'. exists []. reflexivity.
    + subst s'. eexists [_]. reflexivity.
    + subst s'. exists []. reflexivity.
  - destruct (launchfail_cases c s s' HI E) as [ph [kept [sl [rest [n [_ [_ [_ [_ [El _]]]]]]]]]].
    rewrite El. eexists [_]. reflexivity.
  - destruct (match s_pc s with Created | Suspended _ => tick c s | Clean _ _ _ => ctl c s true | _ => None end) as [s1|]; [|discriminate].
    unfold visitor_throws in E. destruct (cut_at k _) as [es|]; [|discriminate]. inversion E.
    rewrite emits_eq. cbn. exists (rev es). reflexivity.
  - destruct (s_fut s n); try discriminate. inversion E; subst. eexists [_]. reflexivity.
  - destruct (s_fut s n); try discriminate. inversion E; subst. eexists [_]. reflexivity.
  - inversion E; subst. exists []. reflexivity.
Qed.

Lemma run_log c : wf_dag (c_dag c) -> forall ls s s', Inv c s -> run_labels c s ls = Some s' ->
  exists new, s_log s' = new ++ s_log s.
Proof.
  intros Hwf. induction ls as [|l ls IH]; intros s s' HI E.
  - inversion E; subst. exists []. reflexivity.
  - cbn in E. destruct (step c s l) as [s1|] eqn:E1; [|discriminate].
    destruct (step_log c s l s1 Hwf HI E1) as [n1 H1].
    destruct (IH s1 s' (step_inv c Hwf s l s1 HI E1) E) as [n2 H2].
    exists (n2 ++ n1). rewrite H2, H1, app_assoc. reflexivity.
Qed.

(** * No infinite execution *)

Lemma fin_dneg (P : nid -> Prop) l : ~ ~ (forall n, In n l -> P n \/ ~ P n).
Proof.
  induction l as [|x l IH]; intros H; [apply H; intros n []|].
  apply IH. intros Hl. assert (Hx : ~ ~ (P x \/ ~ P x)) by tauto. apply Hx. intros Hx'.
  apply H. intros n [<-|Hn]; auto.
Qed.

Section Infinite.
Variables (c : config) (z : Z) (st : nat -> state) (lab : nat -> label).
Hypothesis Hwf : wf_dag (c_dag c).
Hypothesis Hrun : infinite_run c z st lab.

Lemma inf_prefix i : run_labels c (init z) (map lab (seq 0 i)) = Some (st i).
Proof.
  destruct Hrun as [H0 Hs]. induction i as [|i IH]; [cbn; rewrite H0; reflexivity|].
  rewrite seq_S, map_app, run_labels_app, IH. cbn. rewrite Hs. reflexivity.
Qed.
Lemma inf_reach i : reachable c z (st i).
Proof. eexists. apply inf_prefix. Qed.

Lemma inf_log i j : i <= j -> exists new, s_log (st j) = new ++ s_log (st i).
Proof.
  intros H. induction H as [|j H [new IH]]; [exists []; reflexivity|].
  destruct Hrun as [_ Hs].
  destruct (step_log c (st j) (lab j) (st (S j)) Hwf (r_inv c z _ Hwf (inf_reach j)) (Hs j)) as [n1 H1].
  exists (n1 ++ new). rewrite H1, IH, app_assoc. reflexivity.
Qed.

Lemma inf_in e i j : i <= j -> In e (trace (st i)) -> In e (trace (st j)).
Proof.
  intros H Hin. destruct (inf_log i j H) as [new E]. unfold trace in *. rewrite <- in_rev in *.
  rewrite E. apply in_app_iff. right. exact Hin.
Qed.

Lemma inf_ended_by l :
  jobs_end st -> (forall n, In n l -> (exists i, In (ELaunch n) (trace (st i))) \/ ~ exists i, In (ELaunch n) (trace (st i))) ->
  exists J, forall n i, In n l -> In (ELaunch n) (trace (st i)) -> exists o, In (EEnd n o) (trace (st J)).
Proof.
  intros Hj. induction l as [|x l IH]; intros H; [exists 0; intros n i []|].
  destruct IH as [J HJ]; [intros n Hn; apply H; right; exact Hn|].
  destruct (H x (or_introl eq_refl)) as [[i Hi]|Hn].
  - destruct (Hj i x Hi) as [j [o Ho]]. exists (Nat.max J j). intros n i' [<-|Hn] Hl.
    + exists o. eapply inf_in; [|exact Ho]. lia.
    + destruct (HJ n i' Hn Hl) as [o' Ho']. exists o'. eapply inf_in; [|exact Ho']. lia.
  - exists J. intros n i [<-|Hin] Hl; [destruct Hn; eauto|]. eapply HJ; eassumption.
Qed.

Lemma inf_no_timeouts J i : J <= i ->
  (forall n i, In n (node_ids (c_dag c)) -> In (ELaunch n) (trace (st i)) -> exists o, In (EEnd n o) (trace (st J))) ->
  tmo (s_log (st i)) = tmo (s_log (st J)).
Proof.
  intros H HJ. destruct (inf_log J i H) as [new E]. rewrite E. unfold tmo. rewrite filter_app, app_length.
  enough (G : filter is_timeout new = []) by (rewrite G; reflexivity).
  destruct (filter is_timeout new) as [|e r] eqn:Ef; [reflexivity|exfalso].
  assert (Hin : In e (filter is_timeout new)) by (rewrite Ef; left; reflexivity).
  apply filter_In in Hin. destruct Hin as [Hin Ht]. destruct e; try discriminate.
  apply in_split in Hin. destruct Hin as [n1 [n2 ->]].
  pose proof (r_log c z _ Hwf (inf_reach i)) as L. rewrite E, <- app_assoc in L. cbn [app] in L.
  apply log_ok_app in L. destruct L as [[[L1 L2] _] L]. apply L2.
  assert (Hl : In (ELaunch n) (trace (st i))).
  { apply trace_in. rewrite E, <- app_assoc. apply in_app_iff. right. right. exact L1. }
  destruct (HJ n i (launch_ids c _ n L L1) Hl) as [o Ho]. exists o.
  apply in_app_iff. right. apply trace_in. exact Ho.
Qed.

Lemma moves_app a b : moves (a ++ b) = moves a + moves b.
Proof. unfold moves. rewrite filter_app, app_length. reflexivity. Qed.

Lemma inf_moves : keeps_moving lab -> forall k, exists i, k <= moves (map lab (seq 0 i)).
Proof.
  intros Hk. induction k as [|k [i IH]]; [exists 0; lia|].
  destruct (Hk i) as [j [Hij Hj]]. exists (S j).
  rewrite seq_S, map_app, moves_app. cbn [map Nat.add].
  assert (Hone : moves [lab j] = 1) by (unfold moves; cbn; rewrite Hj; reflexivity). rewrite Hone.
  assert (Hle : moves (map lab (seq 0 i)) <= moves (map lab (seq 0 j))).
  { replace j with (i + (j - i)) by lia. rewrite seq_app, map_app, moves_app. lia. }
  lia.
Qed.

Lemma no_infinite_section : keeps_moving lab -> jobs_end st -> False.
Proof.
  intros Hk Hj.
  apply (fin_dneg (fun n => exists i, In (ELaunch n) (trace (st i))) (node_ids (c_dag c))). intros Hdec.
  destruct (inf_ended_by _ Hj Hdec) as [J HJ].
  destruct (inf_moves Hk (S (7 * List.length (node_ids (c_dag c)) + 3 * tmo (s_log (st J))
              + 2 * Nat.max 1 (c_threads c) + 8))) as [i Hi].
  assert (Hi' : exists i, J <= i /\ S (7 * List.length (node_ids (c_dag c)) + 3 * tmo (s_log (st J))
              + 2 * Nat.max 1 (c_threads c) + 8) <= moves (map lab (seq 0 i))).
  { exists (Nat.max i J). split; [lia|]. etransitivity; [exact Hi|].
    replace (Nat.max i J) with (i + (Nat.max i J - i)) by lia. rewrite seq_app, map_app, moves_app. lia. }
  clear i Hi. destruct Hi' as [i [Hi1 Hi2]].
  pose proof (moves_bounded c z _ _ Hwf (inf_prefix i)) as B. rewrite timeouts_log in B.
  rewrite (inf_no_timeouts J i Hi1 HJ) in B. lia.
Qed.

End Infinite.

Lemma no_infinite_execution : forall c z st lab,
  wf_dag (c_dag c) -> infinite_run c z st lab -> keeps_moving lab -> jobs_end st -> False.
Proof. intros c z st lab Hwf Hrun. apply no_infinite_section with (c := c) (z := z); assumption. Qed.
