(** Every call of tick() resumes each running task at most once (C114). *)
From Coq Require Import Lia String Permutation Relations.
From Verif Require Import Model.Common Model.Records Model.Jobs Model.TaskSet Model.Dag
     Model.Sched Model.Exec Model.ExecSet Spec.Graph Spec.Trace Spec.Tasks Spec.Parallel
     Proofs.Sets Proofs.SchedFacts Proofs.InvalFacts Proofs.TraceFacts Proofs.ExecInv
     Proofs.ExecStep Proofs.ExecCtl Proofs.LogFacts Proofs.ExecProps Proofs.ExecProps2
     Proofs.StepCases Proofs.ExecProps3 Proofs.Ticks Proofs.Dispatch Proofs.MachineFacts Proofs.LoopFacts Proofs.SetExec
     Proofs.ParallelFacts.
Open Scope nat_scope.
Open Scope list_scope.

Definition mem (n : nid) (L : list nid) : bool := existsb (Nat.eqb n) L.
Lemma mem_In n L : mem n L = true -> In n L.
Proof. unfold mem. intros H. apply existsb_exists in H. destruct H as (x & Hx & E). apply Nat.eqb_eq in E. subst x. exact Hx. Qed.
Definition vis1 (L : list nid) (e : event) : nat :=
  match e with
  | ETimeout m => if mem m L then 1 else 0
  | EAfterRun _ r _ => if mem (r_node r) L then 1 else 0
  | _ => 0
  end.
Definition vis (L : list nid) (l : list event) : nat := list_sum (map (vis1 L) l).
Definition cnt (L : list nid) (ks : list coro) : nat :=
  list_sum (map (fun k => if mem (co_node k) L then 1 else 0) ks).

Lemma vis_cons L e l : vis L (e :: l) = vis1 L e + vis L l.
Proof. reflexivity. Qed.
Lemma vis_app L a b : vis L (a ++ b) = vis L a + vis L b.
Proof. unfold vis. rewrite map_app, list_sum_app. reflexivity. Qed.
Lemma vis_zero L l : (forall e, In e l -> vis1 L e = 0) -> vis L l = 0.
Proof.
  induction l as [|e l IH]; intros H; [reflexivity|]. rewrite vis_cons, (H e (or_introl eq_refl)), IH; [reflexivity|].
  intros x Hx. apply H. right. exact Hx.
Qed.

Definition V (L : list nid) (w t : nat) (s : state) : Prop :=
  match s_pc s with
  | Created => t = 0 /\ vis L (s_log s) = 0
  | Suspended _ => vis L (s_log s) + w <= w * t
  | Finished => vis L (s_log s) + 2 * w <= w * t \/ (t = 1 /\ forall L, vis L (s_log s) = 0)
  | Clean _ _ rest => vis L (s_log s) + cnt L (map sl_coro rest) + w <= w * t
  | _ => True
  end.

Definition width (c : config) (L : list nid) (w : nat) : Prop :=
  forall s ph, Inv c s -> s_pc s = Suspended ph -> cnt L (map sl_coro (s_coros s)) <= w.

Lemma vis_log3 c L evd todo : vis L (log3 c evd todo) = 0.
Proof.
  apply vis_zero. intros e He. unfold log3, log2, log1 in He.
  repeat (apply in_app_iff in He; destruct He as [He|He]); apply in_rev in He; apply in_map_iff in He; destruct He as (x & <- & _);
    [destruct x; reflexivity|destruct x; reflexivity|reflexivity].
Qed.

Lemma V_tick c L w t s s' : wf_dag (c_dag c) -> width c L w -> Inv c s -> V L w t s -> tick c s = Some s' -> V L w (S t) s'.
Proof.
  intros Hwf Hw HI HV E. unfold tick in E. unfold V in HV. destruct (s_pc s) as [|ph| | | | | | |] eqn:Epc; try discriminate.
  - inversion E; subst s'. destruct (start_spec c Hwf s HI Epc) as [R [_ [Rc _]]].
    inversion R as [? ? cyc L1 L2 L3|? ? m pre post L2 L1 L3 L4 L5 L6 L7|? ? m pre post L2 L1 L3 L4 L5 L6 L7
               |? ? s1 evd todo Es T1 El Ep Et Hso Ec].
    + unfold V. rewrite L2. exact I.
    + unfold V. rewrite L2. exact I.
    + unfold V. rewrite L2. exact I.
    + subst. rewrite Es. unfold main_top, drain_top. rewrite Ec.
      destruct (s_todo s1) as [|x xs] eqn:Et; unfold V; cbn [s_pc set_pc emit s_log].
      * right. split; [lia|]. intros L'. rewrite vis_cons, El, vis_log3. reflexivity.
      * rewrite vis_cons, El, vis_log3. cbn. lia.
  - pose proof (Hw s ph HI Epc) as Hc.
    assert (D : V L w (S t) (drain_top s)).
    { unfold drain_top, V. destruct (s_coros s) as [|sl cs] eqn:Ec; cbn [s_pc set_pc s_log emit].
      - left. rewrite vis_cons, Nat.mul_succ_r. cbn [vis1]. lia.
      - rewrite Nat.mul_succ_r. lia. }
    destruct ph; inversion E; subst s'; [|exact D].
    unfold main_top. destruct (s_todo s) as [|x xs] eqn:Et; [exact D|].
    unfold V. cbn [s_pc set_pc s_log emit]. rewrite vis_cons, Nat.mul_succ_r. cbn [vis1]. lia.
  - inversion E; subst s'. exact I.
  - inversion E; subst s'. exact I.
Qed.

Lemma V_complete L w t s s0 ph kept sl rest rec e :
  V L w t s -> s_pc s = Clean ph kept (sl :: rest) -> co_node (sl_coro sl) = r_node rec ->
  s_log s0 = e :: s_log s -> vis1 L e = 0 ->
  V L w t (complete s0 ph kept sl rest rec).
Proof.
  intros HV Epc Hr El He. unfold V in *. rewrite Epc in HV. unfold complete. cbn [s_pc set_pc s_log emit set_erec] in *.
  rewrite vis_cons, El, vis_cons, He. cbn [vis1]. unfold cnt in *. cbn [map list_sum fold_right] in HV.
  rewrite Hr in HV. change (fold_right Nat.add 0) with list_sum in HV. lia.
Qed.

Lemma V_env L w t s s' e : V L w t s -> s_pc s' = s_pc s -> s_log s' = e :: s_log s -> (forall L, vis1 L e = 0) -> V L w t s'.
Proof.
  unfold V. intros HV -> -> He. rewrite vis_cons, He. destruct (s_pc s); try exact HV.
  destruct HV as [HV|[HV1 HV2]]; [left; exact HV|right]. split; [exact HV1|]. intros L'. rewrite vis_cons, He. apply HV2.
Qed.

Lemma V_ctl c L w t s s' : wf_dag (c_dag c) -> Inv c s -> V L w t s -> ctl c s true = Some s' -> V L w t s'.
Proof.
  intros Hwf HI HV E. pose proof (i_pc _ _ HI) as P. unfold pc_inv in P.
  destruct (ctl_cases c s s' HI E) as
      [ph kept sl rest n s' Epc Esl _ Es|ph kept sl rest n s' Epc Esl _ _ Es
      |ph kept sl rest n s1 s' Epc Esl _ _ Es1 Es|ph kept sl rest n rec s' Epc Esl _ Es
      |ph kept sl rest n rec s' Epc Esl _ Es|ph kept sl rest n rec o s1 s2 s' Epc Esl _ Es1 Es2 Es
      |kept s1 s' Epc Es1 Es|kept s1 s' Epc Es1 Es|e s' Epc Es|e sl rest s' Epc _ Es|s' Epc Es|sl rest s' Epc _ Es].
  - subst s'. eapply (V_complete L w t s _ ph kept sl rest); [exact HV|exact Epc|rewrite Esl; reflexivity|reflexivity|reflexivity].
  - subst s'. eapply (V_complete L w t s _ ph kept sl rest); [exact HV|exact Epc|rewrite Esl; reflexivity|reflexivity|reflexivity].
  - subst s' s1. unfold V in *. rewrite Epc in HV. cbn [s_pc set_pc s_log emit set_fut set_used set_started set_ns] in *.
    rewrite !vis_cons. unfold cnt in *. cbn [map sl_coro vis1] in *. rewrite Esl in HV. exact HV.
  - subst s'. eapply (V_env L w t s); [exact HV|reflexivity..].
  - subst s'. unfold V in *. rewrite Epc in HV. cbn [s_pc set_pc s_log emit] in *. rewrite !vis_cons. unfold cnt in *.
    cbn [map vis1 list_sum fold_right] in *. rewrite Esl in HV. cbn [co_node] in HV. change (fold_right Nat.add 0) with list_sum in HV. lia.
  - rewrite Epc in P. destruct P as [A _].
    assert (Hin : In (Coro n (CWait rec)) (live s)).
    { unfold live. rewrite Epc. apply in_app_iff. right. left. exact Esl. }
    destruct (w_rec _ _ _ _ _ _ (a_wait _ _ _ _ _ _ _ _ A n rec Hin)) as [z0 Ez].
    subst s'. eapply (V_complete L w t s _ ph kept sl rest); [exact HV|exact Epc|rewrite Esl; subst rec; reflexivity| |].
    + subst s2 s1. destruct (negb _); reflexivity.
    + reflexivity.
  - subst s1. unfold V in HV. rewrite Epc in HV.
    destruct (dispatch_cases c s kept s' Hwf HI Epc Es) as [s' E1 E2 E3 E4|m0 s' E1 E2 E3 E4|s' E1 E2 E3]; clear Es; subst s';
      unfold V; cbn [s_pc set_pc s_log set_coros set_todo] in *; cbn in HV; lia.
  - subst s1 s'. unfold V in *. rewrite Epc in HV. cbn [s_pc set_pc s_log set_coros] in *. cbn in HV. lia.
  - subst s'. exact I.
  - subst s'. exact I.
  - subst s'. exact I.
  - subst s'. exact I.
Qed.

Lemma V_step c L w t s l s' : wf_dag (c_dag c) -> width c L w -> Inv c s -> V L w t s -> step c s l = Some s' ->
  V L w ((if is_tick l then 1 else 0) + t) s'.
Proof.
  intros Hwf Hw HI HV E. destruct l; cbn [is_tick]; cbn [step] in E; cbn [Nat.add].
  - apply (V_tick c L w t s s' Hwf Hw HI HV E).
  - destruct (s_pc s); try discriminate; inversion E; subst; exact I.
  - apply (V_ctl c L w t s s' Hwf HI HV E).
  - destruct (launchfail_cases c s s' HI E) as [ph [kept [sl [rest [n [Epc [_ [_ [Ep _]]]]]]]]].
    unfold V. rewrite Ep. exact I.
  - assert (Hpc : exists rest, s_pc s' = Unwind ExcVisitor rest).
    { destruct (match s_pc s with Created | Suspended _ => tick c s | Clean _ _ _ => ctl c s true | _ => None end) as [s1|]; [|discriminate].
      unfold visitor_throws in E. destruct (cut_at k _) as [es|]; [|discriminate]. inversion E. eexists. reflexivity. }
    destruct Hpc as [rest Ep]. unfold V. rewrite Ep. exact I.
  - destruct (s_fut s n); try discriminate. inversion E; subst.
    eapply (V_env L w t s); [exact HV|reflexivity..].
  - destruct (s_fut s n); try discriminate. inversion E; subst.
    eapply (V_env L w t s); [exact HV|reflexivity..].
  - inversion E; subst. exact HV.
Qed.

Lemma V_run c L w : wf_dag (c_dag c) -> width c L w -> forall ls s s' t, Inv c s -> V L w t s -> run_labels c s ls = Some s' ->
  V L w (ticks ls + t) s'.
Proof.
  intros Hwf Hw. induction ls as [|l ls IH]; intros s s' t HI HV E; cbn [run_labels] in *.
  - inversion E; subst. exact HV.
  - destruct (step c s l) as [s1|] eqn:E1; [|discriminate].
    replace (ticks (l :: ls) + t) with (ticks ls + ((if is_tick l then 1 else 0) + t))
      by (unfold ticks; cbn [filter]; destruct (is_tick l); cbn [List.length]; lia).
    eapply IH; [eapply step_inv; eassumption|eapply V_step; eassumption|exact E].
Qed.

(** * How many running tasks there are *)
Lemma cnt_le L ks : cnt L ks <= List.length ks.
Proof. unfold cnt. induction ks as [|k ks IH]; [cbn; lia|]. cbn [map list_sum fold_right List.length]. unfold list_sum in IH. destruct (mem _ L); lia. Qed.
Lemma cnt_zero L ks : (forall k, In k ks -> ~ In (co_node k) L) -> cnt L ks = 0.
Proof.
  unfold cnt. induction ks as [|k ks IH]; intros H; [reflexivity|]. cbn [map list_sum fold_right]. unfold list_sum in IH.
  rewrite IH by (intros x Hx; apply H; right; exact Hx). destruct (mem (co_node k) L) eqn:E; [|reflexivity].
  exfalso. apply (H k (or_introl eq_refl)). apply mem_In, E.
Qed.
Lemma cnt_one L ks : NoDup (map co_node ks) ->
  (forall a b, In a (map co_node ks) -> In b (map co_node ks) -> In a L -> In b L -> a = b) -> cnt L ks <= 1.
Proof.
  induction ks as [|k ks IH]; intros Hn H; [cbn; lia|]. unfold cnt. cbn [map list_sum fold_right]. change (fold_right Nat.add 0) with list_sum.
  fold (cnt L ks). inversion Hn as [|? ? N1 N2]; subst. destruct (mem (co_node k) L) eqn:E.
  - rewrite cnt_zero; [lia|]. intros x Hx HL. apply N1.
    assert (HkL : In (co_node k) L) by (apply mem_In, E).
    rewrite (H (co_node k) (co_node x)); auto; [apply in_map, Hx|left; reflexivity|right; apply in_map, Hx].
  - cbn [Nat.add]. apply IH; [exact N2|]. intros a b Ha Hb. apply H; right; assumption.
Qed.

Lemma seq_pairs d l : in_sequence d l -> ForallOrdPairs (clos_trans nid (runs_after d)) l.
Proof.
  induction l as [|t l IH]; intros H; [constructor|]. destruct l as [|u l]; [repeat constructor|]. destruct H as [H1 H2].
  specialize (IH H2). constructor; [|exact IH]. inversion IH as [|? ? F1 F2]; subst.
  constructor; [exact H1|]. rewrite Forall_forall in *. intros x Hx. eapply t_trans; [exact H1|apply F1, Hx].
Qed.
Lemma pairs_In {A} (R : A -> A -> Prop) l a b : ForallOrdPairs R l -> In a l -> In b l -> a = b \/ R a b \/ R b a.
Proof.
  intros H Ha Hb. destruct (ForallOrdPairs_In H a b Ha Hb) as [E|[E|E]]; auto.
Qed.

Lemma width_seq c L : wf_dag (c_dag c) -> in_sequence (c_dag c) L -> width c L 1.
Proof.
  intros Hwf Hs s ph HI Epc. pose proof (i_pc _ _ HI) as P. unfold pc_inv in P. rewrite Epc in P. destruct P as [A _].
  assert (Hl : live s = map sl_coro (s_coros s)) by (unfold live; rewrite Epc; reflexivity).
  unfold act in A. rewrite <- Hl.
  pose proof (k_log _ _ _ _ (i_core _ _ HI)) as Hok.
  assert (Har : forall n, In n (map co_node (live s)) -> after_recorded c (s_log s) n).
  { intros n Hn. apply act_lv_cases in Hn. destruct Hn as [Hn|[rec Hn]].
    - apply (a_fresh _ _ _ _ _ _ _ _ A n Hn).
    - apply (w_after _ _ _ _ _ _ (a_wait _ _ _ _ _ _ _ _ A n rec Hn)). }
  apply cnt_one.
  - pose proof (act_nodup c _ _ _ _ _ _ _ (proj1 Hwf) A) as N. apply NoDup_app_iff in N. destruct N as [_ [N _]].
    apply NoDup_app_iff in N. apply N.
  - intros a b Ha Hb La Lb. destruct (pairs_In _ _ _ _ (seq_pairs _ _ Hs) La Lb) as [E|[E|E]]; [exact E| |]; exfalso.
    + eapply (act_lv_not_recorded c); [apply Hwf|exact A|exact Hb|]. eapply after_closed; [exact Hok|apply Har, Ha|exact E].
    + eapply (act_lv_not_recorded c); [apply Hwf|exact A|exact Ha|]. eapply after_closed; [exact Hok|apply Har, Hb|exact E].
Qed.
Lemma width_threads c L : width c L (Nat.max 1 (c_threads c)).
Proof.
  intros s ph HI Epc. etransitivity; [apply cnt_le|].
  replace (map sl_coro (s_coros s)) with (live s) by (unfold live; rewrite Epc; reflexivity).
  apply (k_bound _ _ _ _ (i_core _ _ HI)).
Qed.

(** * At the end *)
Lemma vis_single n log : recorded_l log n -> S (tmu n log) <= vis [n] log.
Proof.
  assert (G : tmu n log + (if recb n log then 1 else 0) <= vis [n] log).
  { induction log as [|e l IH]; [cbn; lia|]. rewrite tmu_cons, vis_cons.
    destruct e; try (rewrite recb_other by discriminate; cbn [vis1]; lia).
    - rewrite recb_other by discriminate. cbn [vis1]. unfold mem. cbn [existsb]. rewrite orb_false_r. lia.
    - rewrite recb_after. cbn [vis1]. unfold mem. cbn [existsb]. rewrite orb_false_r. destruct (r_node r =? n), (recb n l); cbn [orb] in *; lia. }
  intros H. apply recb_true in H. rewrite H in G. lia.
Qed.
Lemma mem_sum m L : NoDup L -> list_sum (map (fun n => if mem m [n] then 1 else 0) L) <= (if mem m L then 1 else 0).
Proof.
  induction 1 as [|x l Hx Hn IH]; [cbn; lia|]. cbn [map list_sum fold_right]. change (fold_right Nat.add 0) with list_sum.
  unfold mem in *. cbn [existsb] in *. rewrite orb_false_r. destruct (m =? x) eqn:E; cbn [orb]; [|exact IH].
  apply Nat.eqb_eq in E. subst m. destruct (existsb (Nat.eqb x) l) eqn:Ex; [|lia]. exfalso. apply Hx. apply mem_In, Ex.
Qed.
Lemma sum_add (f g : nid -> nat) l : list_sum (map (fun n => f n + g n) l) = list_sum (map f l) + list_sum (map g l).
Proof. induction l as [|x l IH]; [reflexivity|]. unfold list_sum in *. cbn [map fold_right]. lia. Qed.
Lemma sum_zero (f : nid -> nat) l : (forall n, f n = 0) -> list_sum (map f l) = 0.
Proof. intros H. induction l as [|x l IH]; [reflexivity|]. unfold list_sum in *. cbn [map fold_right]. rewrite H, IH. reflexivity. Qed.
Lemma vis_sum L log : NoDup L -> list_sum (map (fun n => vis [n] log) L) <= vis L log.
Proof.
  intros Hn. induction log as [|e l IH]; [rewrite sum_zero by reflexivity; cbn; lia|].
  rewrite vis_cons. rewrite (map_ext _ (fun n => vis1 [n] e + vis [n] l)) by reflexivity. rewrite sum_add.
  enough (list_sum (map (fun n => vis1 [n] e) L) <= vis1 L e) by lia.
  destruct e; cbn [vis1]; try (rewrite sum_zero by reflexivity; lia); apply mem_sum, Hn.
Qed.

Lemma visits_end2 c z ls s er L w : wf_dag (c_dag c) -> run_labels c (init z) ls = Some s -> result s = RRecord er ->
  NoDup L -> incl L (node_ids (c_dag c)) -> width c L w ->
  all_polls (trace s) L + 2 * w <= w * ticks ls \/ (ticks ls = 1 /\ node_ids (c_dag c) = []).
Proof.
  intros Hwf Hrun Hres Hn Hi Hw.
  pose proof (V_run c L w Hwf Hw ls (init z) s 0 (inv_init c z) (conj eq_refl eq_refl) Hrun) as HV.
  assert (HR : reachable c z s) by (exists ls; exact Hrun).
  destruct (finished_log c z s Hwf HR er Hres) as (_ & Epc & _).
  unfold V in HV. rewrite Epc in HV. rewrite Nat.add_0_r in HV.
  assert (G : forall u, In u (node_ids (c_dag c)) -> S (polls (trace s) u) <= vis [u] (s_log s)).
  { intros u Hu. rewrite <- tmu_polls. apply vis_single. destruct (all_rec c z ls s er Hwf Hrun Hres u Hu) as (r & H1 & H2). exists r. auto. }
  destruct HV as [HV|[HV HV0]].
  - left. enough (all_polls (trace s) L <= vis L (s_log s)) by lia. etransitivity; [|apply vis_sum, Hn]. unfold all_polls. apply sum_le. intros u Hu. apply G, Hi, Hu.
  - right. split; [exact HV|]. destruct (node_ids (c_dag c)) as [|u us] eqn:Ei; [reflexivity|]. exfalso.
    specialize (G u (or_introl eq_refl)). rewrite HV0 in G. lia.
Qed.
Lemma visits_end c z ls s er L w : wf_dag (c_dag c) -> run_labels c (init z) ls = Some s -> result s = RRecord er ->
  NoDup L -> incl L (node_ids (c_dag c)) -> width c L w -> all_polls (trace s) L <= w * ticks ls.
Proof.
  intros Hwf Hrun Hres Hn Hi Hw. destruct (visits_end2 c z ls s er L w Hwf Hrun Hres Hn Hi Hw) as [H|[_ H]]; [lia|].
  rewrite H in Hi. destruct L as [|u L]; [cbn; lia|]. destruct (Hi u (or_introl eq_refl)).
Qed.

(** * Lower bounds *)
Lemma seq_nodup d l : acyclic d -> in_sequence d l -> NoDup l.
Proof.
  intros Ha Hs. apply seq_pairs in Hs. induction Hs as [|x l F _ IH]; constructor; [|exact IH].
  intros Hx. rewrite Forall_forall in F. apply Ha. exists x. apply F, Hx.
Qed.

Theorem least_ticks_sharp : forall c z ls s er,
  wf_dag (c_dag c) -> run_labels c (init z) ls = Some s -> result s = RRecord er -> node_ids (c_dag c) <> [] ->
  (forall l, incl l (node_ids (c_dag c)) -> in_sequence (c_dag c) l -> all_polls (trace s) l + 2 <= ticks ls) /\
  all_polls (trace s) (node_ids (c_dag c)) + 2 * Nat.max 1 (c_threads c) <= Nat.max 1 (c_threads c) * ticks ls.
Proof.
  intros c z ls s er Hwf Hrun Hres Hne.
  split.
  - intros l Hi Hs. assert (Hn : NoDup l).
    { eapply seq_nodup; [|exact Hs]. intros Hc. apply (proj2 (cycle_never_runs c z s Hwf (ex_intro _ ls Hrun) Hc) er), Hres. }
    destruct (visits_end2 c z ls s er l 1 Hwf Hrun Hres Hn Hi (width_seq _ _ Hwf Hs)) as [H|[_ H]]; [lia|contradiction].
  - destruct (visits_end2 c z ls s er (node_ids (c_dag c)) (Nat.max 1 (c_threads c)) Hwf Hrun Hres (proj1 Hwf) (incl_refl _) (width_threads _ _)) as [H|[_ H]]; [lia|contradiction].
Qed.
Theorem least_ticks_polls : forall c z ls s er,
  wf_dag (c_dag c) -> run_labels c (init z) ls = Some s -> result s = RRecord er ->
  (forall l, incl l (node_ids (c_dag c)) -> in_sequence (c_dag c) l -> all_polls (trace s) l <= ticks ls) /\
  all_polls (trace s) (node_ids (c_dag c)) <= Nat.max 1 (c_threads c) * ticks ls.
Proof.
  intros c z ls s er Hwf Hrun Hres.
  split.
  - intros l Hi Hs. rewrite <- (Nat.mul_1_l (ticks ls)). eapply visits_end; try eassumption; [|apply width_seq; assumption].
    eapply seq_nodup; [|exact Hs]. intros Hc. apply (proj2 (cycle_never_runs c z s Hwf (ex_intro _ ls Hrun) Hc) er), Hres.
  - eapply visits_end; try eassumption; [apply Hwf|apply incl_refl|apply width_threads].
Qed.

Lemma all_polls_mono tr tr' l : (forall n, In n l -> polls tr n <= polls tr' n) -> all_polls tr l <= all_polls tr' l.
Proof. intros H. unfold all_polls. apply sum_le. intros n Hn. specialize (H n Hn). lia. Qed.

Definition idle_pc (p : pc) : Prop := match p with Suspended _ | Clean _ _ _ | Finished => False | _ => True end.
Lemma idle_step c s l s' : Inv c s -> idle_pc (s_pc s) -> is_tick l = false -> step c s l = Some s' -> idle_pc (s_pc s').
Proof.
  intros HI Hq Ht E. destruct l; try discriminate; cbn [step] in E.
  - destruct (s_pc s); try discriminate; inversion E; subst; exact I.
  - destruct (ctl_cases c s s' HI E) as
      [ph kept sl rest n s' Epc Esl _ Es|ph kept sl rest n s' Epc Esl _ _ Es
      |ph kept sl rest n s1 s' Epc Esl _ _ Es1 Es|ph kept sl rest n rec s' Epc Esl _ Es
      |ph kept sl rest n rec s' Epc Esl _ Es|ph kept sl rest n rec o s1 s2 s' Epc Esl _ Es1 Es2 Es
      |kept s1 s' Epc Es1 Es|kept s1 s' Epc Es1 Es|e s' Epc Es|e sl rest s' Epc _ Es|s' Epc Es|sl rest s' Epc _ Es];
      rewrite Epc in Hq; try destruct Hq; subst s'; exact I.
  - destruct (launchfail_cases c s s' HI E) as [ph [kept [sl [rest [n [Epc _]]]]]]. rewrite Epc in Hq. destruct Hq.
  - destruct (match s_pc s with Created | Suspended _ => tick c s | Clean _ _ _ => ctl c s true | _ => None end) as [s1|]; [|discriminate].
    unfold visitor_throws in E. destruct (cut_at k _) as [es|]; [|discriminate]. inversion E. exact I.
  - destruct (s_fut s n); try discriminate. inversion E; subst. exact Hq.
  - destruct (s_fut s n); try discriminate. inversion E; subst. exact Hq.
  - inversion E; subst. exact Hq.
Qed.
Lemma some_tick c : wf_dag (c_dag c) -> forall ls s s', Inv c s -> idle_pc (s_pc s) -> run_labels c s ls = Some s' -> s_pc s' = Finished ->
  1 <= ticks ls.
Proof.
  intros Hwf. induction ls as [|l ls IH]; intros s s' HI Hq E Ef; cbn [run_labels] in *.
  - inversion E; subst. rewrite Ef in Hq. destruct Hq.
  - destruct (step c s l) as [s1|] eqn:E1; [|discriminate]. unfold ticks. cbn [filter].
    destruct (is_tick l) eqn:Et; [cbn [List.length]; lia|].
    eapply (IH s1 s'); [eapply step_inv; eassumption|eapply idle_step; eassumption|exact E|exact Ef].
Qed.


(** [c] is part of [c'], with node [n] in the place [f n]. *)
Lemma other_places f : forall c z ls s er c' z' ls' s' er',
  wf_dag (c_dag c) -> wf_dag (c_dag c') ->
  (forall n, In n (node_ids (c_dag c)) -> In (f n) (node_ids (c_dag c'))) ->
  (forall a b, In a (node_ids (c_dag c)) -> In b (node_ids (c_dag c)) -> f a = f b -> a = b) ->
  (forall a b, clos_trans nid (runs_after (c_dag c)) a b -> clos_trans nid (runs_after (c_dag c')) (f a) (f b)) ->
  (forall v u r, In v (node_ids (c_dag c)) -> In u (node_ids (c_dag c)) -> v <> u -> In r (node_res c v) -> ~ In r (node_res c u)) ->
  run_labels c (init z) ls = Some s -> result s = RRecord er ->
  run_labels c' (init z') ls' = Some s' -> result s' = RRecord er' ->
  (forall n, In n (node_ids (c_dag c)) -> polls (trace s) n <= polls (trace s') (f n)) ->
  c_threads c * ticks ls <= (2 * c_threads c + Nat.max 1 (c_threads c')) * ticks ls' /\
  (0 < c_threads c -> c_threads c' <= c_threads c -> ticks ls <= 3 * ticks ls') /\
  (c_threads c = 0 \/ List.length (node_ids (c_dag c)) <= c_threads c -> ticks ls <= 2 * ticks ls').
Proof.
  intros c z ls s er c' z' ls' s' er' Hwf Hwf' Hin Hinj Haf Hr E1 R1 E2 R2 Hp.
  destruct (parallel_ticks c z ls s er Hwf E1 R1) as (l & busy & Hc & Hnl & Hi & H1 & H2 & H3).
  assert (Hs : in_sequence (c_dag c) l) by (eapply chain_seq; eassumption).
  assert (Hmi : forall l, incl l (node_ids (c_dag c)) -> incl (map f l) (node_ids (c_dag c'))).
  { intros l0 Hl x Hx. apply in_map_iff in Hx. destruct Hx as (y & <- & Hy). apply Hin, Hl, Hy. }
  assert (Hmn : NoDup (map f (node_ids (c_dag c)))).
  { assert (G : forall l0, NoDup l0 -> incl l0 (node_ids (c_dag c)) -> NoDup (map f l0)).
    { induction 1 as [|x l0 Hx Hn IH]; intros Hl; [constructor|]. cbn [map]. constructor; [|apply IH; intros y Hy; apply Hl; right; exact Hy].
      intros Hf. apply in_map_iff in Hf. destruct Hf as (y & Ey & Hy). apply Hinj in Ey; [subst y; exact (Hx Hy)| |apply Hl; left; reflexivity].
      apply Hl. right. exact Hy. }
    apply G; [apply Hwf|apply incl_refl]. }
  assert (Hms : in_sequence (c_dag c') (map f l)).
  { clear -Hs Haf. induction l as [|t l IH]; [exact I|]. destruct l as [|u l]; [exact I|]. destruct Hs as [S1 S2]. split; [apply Haf, S1|apply IH, S2]. }
  assert (Hmp : forall l0, incl l0 (node_ids (c_dag c)) -> all_polls (trace s) l0 <= all_polls (trace s') (map f l0)).
  { intros l0 Hl. unfold all_polls. rewrite map_map. apply sum_le. intros n Hn. specialize (Hp n (Hl n Hn)). lia. }
  destruct (least_ticks_polls c' z' ls' s' er' Hwf' E2 R2) as [L1 _].
  specialize (L1 (map f l) (Hmi l Hi) Hms). pose proof (Hmp l Hi) as M1.
  assert (L2 : all_polls (trace s) (node_ids (c_dag c)) <= Nat.max 1 (c_threads c') * ticks ls').
  { etransitivity; [apply Hmp, incl_refl|]. eapply visits_end; try eassumption; [apply Hmi, incl_refl|apply width_threads]. }
  assert (L0 : 1 <= ticks ls').
  { destruct (finished_log c' z' s' Hwf' (ex_intro _ ls' E2) er' R2) as (_ & Epc & _).
    exact (some_tick c' Hwf' ls' (init z') s' (inv_init c' z') I E2 Epc). }
  assert (L4 : List.length (node_ids (c_dag c)) + 2 + all_polls (trace s) l <= 2 * ticks ls').
  { pose proof (NoDup_incl_length Hmn (Hmi _ (incl_refl _))) as Hle. rewrite map_length in Hle.
    destruct (node_ids (c_dag c)) as [|x xs] eqn:Ei.
    - destruct l as [|y l]; [cbn; lia|destruct (Hi y (or_introl eq_refl))].
    - destruct (least_ticks c' z' ls' s' er' Hwf' E2 R2) as [L3 _]; [|unfold nid in *; lia].
      intros E. specialize (Hin x (or_introl eq_refl)). rewrite E in Hin. destruct Hin. }
  assert (G : c_threads c * ticks ls <= (2 * c_threads c + Nat.max 1 (c_threads c')) * ticks ls').
  { transitivity (c_threads c * (2 * ticks ls' + busy)); [apply Nat.mul_le_mono_l; lia|]. nia. }
  split; [exact G|]. split.
  - intros K1 K2. assert (M : Nat.max 1 (c_threads c') <= c_threads c) by lia.
    assert (G' : c_threads c * ticks ls <= c_threads c * (3 * ticks ls')) by nia.
    apply Nat.mul_le_mono_pos_l in G'; assumption.
  - intros K. specialize (H3 K). lia.
Qed.

Theorem other_threads : forall c z ls s er c' z' ls' s' er',
  wf_dag (c_dag c) -> c_dag c' = c_dag c ->
  (forall v u r, In v (node_ids (c_dag c)) -> In u (node_ids (c_dag c)) -> v <> u -> In r (node_res c v) -> ~ In r (node_res c u)) ->
  run_labels c (init z) ls = Some s -> result s = RRecord er ->
  run_labels c' (init z') ls' = Some s' -> result s' = RRecord er' ->
  (forall n, In n (node_ids (c_dag c)) -> polls (trace s) n <= polls (trace s') n) ->
  c_threads c * ticks ls <= (2 * c_threads c + Nat.max 1 (c_threads c')) * ticks ls' /\
  (0 < c_threads c -> c_threads c' <= c_threads c -> ticks ls <= 3 * ticks ls') /\
  (c_threads c = 0 \/ List.length (node_ids (c_dag c)) <= c_threads c -> ticks ls <= 2 * ticks ls').
Proof.
  intros c z ls s er c' z' ls' s' er' Hwf Ed Hr E1 R1 E2 R2 Hp.
  apply (other_places (fun n => n) c z ls s er c' z' ls' s' er' Hwf); rewrite ?Ed; auto.
Qed.

Theorem fewer_constraints : forall st ts filt iv addr c z ls s er st' ts' filt' iv' addr' c' z' ls' s' er',
  execution_of st ts filt iv addr c -> execution_of st' ts' filt' iv' addr' c' ->
  (forall t, selected st ts filt t -> selected st' ts' filt' t) ->
  (forall a b, selected_after st ts filt a b -> task_after st' a b) ->
  (forall a b r, selected st ts filt a -> selected st ts filt b -> a <> b -> In r (t_resources (st_get st a)) -> ~ In r (t_resources (st_get st b))) ->
  run_labels c (init z) ls = Some s -> result s = RRecord er ->
  run_labels c' (init z') ls' = Some s' -> result s' = RRecord er' ->
  (forall t, selected st ts filt t -> polls (trace s) (addr t) <= polls (trace s') (addr' t)) ->
  c_threads c * ticks ls <= (2 * c_threads c + Nat.max 1 (c_threads c')) * ticks ls' /\
  (0 < c_threads c -> c_threads c' <= c_threads c -> ticks ls <= 3 * ticks ls') /\
  (c_threads c = 0 \/ List.length (node_ids (c_dag c)) <= c_threads c -> ticks ls <= 2 * ticks ls').
Proof.
  intros st ts filt iv addr c z ls s er st' ts' filt' iv' addr' c' z' ls' s' er' X X' Hsel Haf Hr E1 R1 E2 R2 Hp.
  destruct (exec_facts _ _ _ _ _ _ X) as (W1 & _ & _ & T1 & N1 & I1 & D1 & C1 & _).
  destruct (exec_facts _ _ _ _ _ _ X') as (W2 & _ & _ & T2 & N2 & I2 & D2 & C2 & _).
  set (f := fun n => addr' (node_task (c_dag c) n)).
  assert (Ff : forall t, selected st ts filt t -> f (addr t) = addr' t).
  { intros t St. unfold f. destruct (T1 t St) as (_ & -> & _). reflexivity. }
  apply (other_places f c z ls s er c' z' ls' s' er' W1 W2); auto.
  - intros n Hn. destruct (N1 n Hn) as (t & St & ->). rewrite (Ff t St). apply (T2 t (Hsel t St)).
  - intros a b Ha Hb. destruct (N1 a Ha) as (x & Sx & ->). destruct (N1 b Hb) as (y & Sy & ->). rewrite (Ff x Sx), (Ff y Sy).
    intros E. apply (I2 x y (Hsel x Sx) (Hsel y Sy)) in E. congruence.
  - intros a b Hp'. induction Hp' as [a b He|a b x _ IH1 _ IH2]; [|eapply t_trans; eassumption].
    unfold runs_after in *. apply D1 in He. destruct He as (x & y & Sx & Sy & -> & -> & D). rewrite (Ff x Sx), (Ff y Sy). apply t_step.
    apply D2. exists x, y. split; [apply Hsel, Sx|]. split; [apply Hsel, Sy|]. split; [reflexivity|]. split; [reflexivity|].
    assert (G : task_after st' x y).
    { apply Haf. split; [exact Sx|]. split; [exact Sy|]. destruct D as [D|[[_ D]|[D _]]]; [left; exact D|right; exact D|discriminate]. }
    destruct G as [G|G]; [left; exact G|right; left; auto].
  - intros v u r Hv Hu Hne. destruct (N1 v Hv) as (x & Sx & ->). destruct (N1 u Hu) as (y & Sy & ->). unfold node_res.
    rewrite (proj1 (proj2 (T1 x Sx))), (proj1 (proj2 (T1 y Sy))), C1. apply Hr; [exact Sx|exact Sy|congruence].
  - intros n Hn. destruct (N1 n Hn) as (t & St & ->). rewrite (Ff t St). apply Hp, St.
Qed.
