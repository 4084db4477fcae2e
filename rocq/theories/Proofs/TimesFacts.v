(** The times in a record of an execution (C112). *)
From Coq Require Import Lia String Permutation Sorted.
From Verif Require Import Model.Common Model.Records Model.Jobs Model.TaskSet Model.Dag
     Model.Sched Model.Exec Spec.Graph Spec.Trace Spec.Times
     Proofs.Sets Proofs.SchedFacts Proofs.InvalFacts Proofs.TraceFacts Proofs.ExecInv
     Proofs.ExecStep Proofs.ExecCtl Proofs.LogFacts Proofs.ExecProps Proofs.ExecProps2
     Proofs.StepCases Proofs.ExecProps3 Proofs.Ticks Proofs.Stamps.
Open Scope nat_scope.
Open Scope list_scope.

Definition wrec (k : coro) : list run_record := match co_st k with CWait r => [r] | CFresh => [] end.
(** The records of the coroutines that wait for their job. *)
Definition wl (s : state) : list run_record :=
  match s_pc s with Suspended _ | Clean _ _ _ => flat_map wrec (live s) | _ => [] end.

Inductive moved (s s' : state) : Prop :=
| mv_same : wl s' = wl s -> recs (s_log s') = recs (s_log s) -> moved s s'
| mv_launch rec l1 l2 : wl s = l1 ++ l2 -> wl s' = l1 ++ rec :: l2 -> recs (s_log s') = recs (s_log s) ->
    r_start rec = s_clock s -> moved s s'
| mv_done rec r l1 l2 : wl s = l1 ++ rec :: l2 -> wl s' = l1 ++ l2 -> recs (s_log s') = recs (s_log s) ++ [r] ->
    r_node r = r_node rec -> r_start r = r_start rec -> r_end r = s_clock s -> moved s s'
| mv_point r : wl s' = wl s -> recs (s_log s') = recs (s_log s) ++ [r] -> ~ was_executed r ->
    r_start r = s_clock s -> r_end r = s_clock s -> moved s s'
| mv_off : wl s' = [] -> recs (s_log s') = recs (s_log s) -> moved s s'
| mv_off_done rec r : wl s' = [] -> In rec (wl s) -> recs (s_log s') = recs (s_log s) ++ [r] ->
    r_node r = r_node rec -> r_start r = r_start rec -> r_end r = s_clock s -> moved s s'
| mv_off_point r : wl s' = [] -> recs (s_log s') = recs (s_log s) ++ [r] -> ~ was_executed r ->
    r_start r = s_clock s -> r_end r = s_clock s -> moved s s'.

Lemma wl_clean s ph kept rest : s_pc s = Clean ph kept rest -> wl s = flat_map wrec kept ++ flat_map wrec (map sl_coro rest).
Proof. intros E. unfold wl, live. rewrite E. apply flat_map_app. Qed.
Lemma wl_susp s ph : s_pc s = Suspended ph -> wl s = flat_map wrec (map sl_coro (s_coros s)).
Proof. intros E. unfold wl, live. rewrite E. reflexivity. Qed.

Lemma moved_step0 c s l s' : wf_dag (c_dag c) -> Inv c s -> step c s l = Some s' ->
  (forall k, l <> LVisThrow k) -> moved s s'.
Proof.
  intros Hwf HI E Hnv. assert (HI' : Inv c s') by (eapply step_inv; eassumption).
  assert (HN : recs (s_log s') = recs (s_log s) ->
     match s_pc s' with Suspended _ | Clean _ _ _ => False | _ => True end -> moved s s').
  { intros E1 E2. apply mv_off; [|exact E1]. unfold wl. destruct (s_pc s'); contradiction || reflexivity. }
  assert (Hdt : forall s0, recs (s_log s0) = recs (s_log s) ->
     wl s = flat_map wrec (map sl_coro (s_coros s0)) ->
     s' = drain_top s0 \/ s' = main_top s0 -> moved s s').
  { intros s0 E2 Hlv Hs. assert (Hd : s' = drain_top s0 -> moved s s').
    { intros Es. unfold drain_top in Es. destruct (s_coros s0) eqn:Ec.
      - apply HN; subst s'; cbn -[recs]; [rewrite recs_other by reflexivity; exact E2|exact I].
      - apply mv_same; subst s'; [|exact E2]. rewrite Hlv, <- Ec. reflexivity. }
    destruct Hs as [Hs|Hs]; [exact (Hd Hs)|]. unfold main_top in Hs. destruct (s_todo s0) eqn:Et; [exact (Hd Hs)|].
    apply mv_same; subst s'; [rewrite Hlv; reflexivity|]. cbn -[recs]. rewrite recs_other by reflexivity. exact E2. }
  destruct l; cbn [step] in E.
  - unfold tick in E. destruct (s_pc s) as [|ph| | | | | | |] eqn:Epc; try discriminate.
    + inversion E; subst s'. destruct (start_spec c Hwf s HI Epc) as [R [_ [Rc Rk]]].
      pose proof (i_pc _ _ HI) as P. unfold pc_inv in P. rewrite Epc in P.
      destruct P as [_ [_ [_ [_ [_ [_ El0]]]]]].
      inversion R as [? ? cyc L1 L2 L3|? ? m pre post L2 L1 L3 L4 L5 L6 L7|? ? m pre post L2 L1 L3 L4 L5 L6 L7
                 |? ? s1 evd todo Es T1 El Ep Et Hso Ec Eck]; subst.
      * assert (Hrr : recs (s_log (start c s)) = []).
        { rewrite L1. rewrite recs_other by reflexivity. apply startup_recs.
          eapply Forall_impl; [|apply (proj1 (proj2 (log1_ok c Hwf)))]. intros [] X; try discriminate; reflexivity. }
        apply HN; [rewrite Hrr, El0; reflexivity|rewrite L2; exact I].
      * apply HN; [|rewrite L2; exact I]. rewrite El0.
        assert (Hrr : recs (s_log (start c s)) = []); [|rewrite Hrr; reflexivity].
        pose proof (i_pc _ _ HI') as P. unfold pc_inv in P. rewrite L2 in P. destruct P as [_ [_ [_ P]]].
        apply startup_recs, jobinv_startup, P.
      * apply HN; [|rewrite L2; exact I]. rewrite El0.
        assert (Hrr : recs (s_log (start c s)) = []); [|rewrite Hrr; reflexivity].
        pose proof (i_pc _ _ HI') as P. unfold pc_inv in P. rewrite L2 in P. destruct P as [_ [_ [_ P]]].
        apply startup_recs, jobinv_startup, P.
      * apply (Hdt s1); [|unfold wl; rewrite Epc, Ec; reflexivity|right; exact Es].
        rewrite El0. pose proof (t_act _ _ T1) as A. destruct (a_snap _ _ _ _ _ _ _ _ A) as [Er _].
        rewrite <- Er. pose proof (Permutation_length (a_perm _ _ _ _ _ _ _ _ A)) as Hl.
        destruct (recs (s_log s1)) as [|r0 rs0] eqn:Erc; [cbn in Er; exact Er|exfalso].
        assert (Hb : In r0 (recs (s_log s1))) by (rewrite Erc; left; reflexivity).
        assert (Hrec0 : recorded_l (s_log s1) (r_node r0)) by (exists r0; auto).
        apply (act_recorded c _ _ _ _ _ _ _ A) in Hrec0. pose proof (act_nodup c _ _ _ _ _ _ _ (proj1 Hwf) A) as Hnd.
        rewrite Ec in Hnd. cbn in Hnd. apply NoDup_app_iff in Hnd. destruct Hnd as [_ [_ Hnd]].
        apply (Hnd (r_node r0)); [|exact Hrec0].
        match goal with H : forall n, In n (s_todo s1) <-> _ |- _ => apply H end.
        apply (act_where c _ _ _ _ _ _ _ A). right; right; exact Hrec0.
    + destruct ph; inversion E; subst s'; (apply (Hdt s); [reflexivity|eapply wl_susp; exact Epc|auto]).
    + inversion E; subst. apply HN; [reflexivity|exact I].
    + inversion E; subst. apply HN; [reflexivity|exact I].
  - destruct (s_pc s); try discriminate; inversion E; subst; (apply HN; [reflexivity|exact I]).
  - destruct (ctl_cases c s s' HI E) as
      [ph kept sl rest n s' Epc Esl _ Es|ph kept sl rest n s' Epc Esl _ _ Es
      |ph kept sl rest n s1 s' Epc Esl _ _ Es1 Es|ph kept sl rest n rec s' Epc Esl _ Es
      |ph kept sl rest n rec s' Epc Esl _ Es|ph kept sl rest n rec o s1 s2 s' Epc Esl _ Es1 Es2 Es
      |kept s1 s' Epc Es1 Es|kept s1 s' Epc Es1 Es|e s' Epc Es|e sl rest s' Epc _ Es|s' Epc Es|sl rest s' Epc _ Es].
    1,2: eapply mv_point with (r := with_status (new_record c n (s_clock s)) _);
      [rewrite (wl_clean s _ _ _ Epc), (wl_clean s' ph kept rest) by (subst s'; reflexivity); cbn; rewrite Esl; reflexivity
      |subst s'; unfold complete, emit; cbn [s_log set_pc set_erec set_log]; rewrite recs_after; f_equal; apply recs_other; reflexivity
      |intros [X|X]; discriminate|reflexivity|reflexivity].
    + eapply mv_launch with (rec := new_record c n (s_clock s)) (l1 := flat_map wrec kept) (l2 := flat_map wrec (map sl_coro rest)).
      * rewrite (wl_clean s _ _ _ Epc). cbn. rewrite Esl. reflexivity.
      * subst s'. match goal with |- wl ?x = _ => rewrite (wl_clean x ph kept _ eq_refl) end. reflexivity.
      * subst s' s1. cbn -[recs]. rewrite !recs_other by reflexivity. reflexivity.
      * reflexivity.
    + apply mv_same; [|subst s'; apply recs_other; reflexivity]. subst s'. unfold wl, live. cbn. rewrite Epc. reflexivity.
    + apply mv_same; [|subst s'; apply recs_other; reflexivity].
      rewrite (wl_clean s _ _ _ Epc). subst s'. match goal with |- wl ?x = _ => rewrite (wl_clean x ph _ rest eq_refl) end. rewrite flat_map_app, <- app_assoc.
      cbn. rewrite Esl. reflexivity.
    + assert (Hin : In (Coro n (CWait rec)) (live s)).
      { unfold live. rewrite Epc. apply in_app_iff. right. left. exact Esl. }
      eapply mv_done with (rec := rec) (r := finish_record rec (run_lambda o) (s_clock s))
        (l1 := flat_map wrec kept) (l2 := flat_map wrec (map sl_coro rest)).
      * rewrite (wl_clean s _ _ _ Epc). cbn. rewrite Esl. reflexivity.
      * subst s'. match goal with |- wl ?x = _ => rewrite (wl_clean x ph kept rest eq_refl) end. reflexivity.
      * subst s'. unfold complete, emit. cbn [s_log set_pc set_erec set_log]. rewrite recs_after. f_equal.
        subst s1 s2. destruct (negb _); apply recs_other; reflexivity.
      * reflexivity.
      * reflexivity.
      * reflexivity.
    + subst s1. pose proof (i_pc _ _ HI) as P. unfold pc_inv in P. rewrite Epc in P.
      destruct P as [_ [_ [_ [P2 _]]]]. cbn [List.length] in P2.
      assert (Hc : map sl_coro (compact (s_coros s) kept) = kept) by (apply compact_coros; lia).
      assert (Hw : wl s = flat_map wrec kept) by (rewrite (wl_clean s _ _ _ Epc); apply app_nil_r).
      destruct (dispatch_cases c s kept s' Hwf HI Epc Es) as [s' E1 E2 E3 E4|m0 s' E1 E2 E3 E4|s' E1 E2 E3]; clear Es; subst s';
        (apply mv_same; [|reflexivity]); rewrite Hw; (match goal with |- wl ?x = _ => rewrite (wl_susp x _ eq_refl) end); cbn; rewrite ?map_app, ?Hc; auto.
      rewrite flat_map_app. cbn. apply app_nil_r.
    + subst s1. pose proof (i_pc _ _ HI) as P. unfold pc_inv in P. rewrite Epc in P.
      destruct P as [_ [_ [_ [P2 _]]]]. cbn [List.length] in P2.
      assert (Hc : map sl_coro (compact (s_coros s) kept) = kept) by (apply compact_coros; lia).
      assert (Hw : wl s = flat_map wrec kept) by (rewrite (wl_clean s _ _ _ Epc); apply app_nil_r).
      subst s'. apply mv_same; [|reflexivity]. rewrite Hw. match goal with |- wl ?x = _ => rewrite (wl_susp x _ eq_refl) end. cbn. now rewrite Hc.
    + subst s'. apply HN; [reflexivity|exact I].
    + subst s'. apply HN; [reflexivity|exact I].
    + subst s'. apply HN; [apply recs_other; reflexivity|exact I].
    + subst s'. apply HN; [reflexivity|exact I].
  - destruct (launchfail_cases c s s' HI E) as [ph [kept [sl [rest [n [Epc [_ [_ [Ep [El [_ [Ek _]]]]]]]]]]]].
    apply HN; [rewrite El; apply recs_other; reflexivity|rewrite Ep; exact I].
  - destruct (Hnv k eq_refl).
  - destruct (s_fut s n); try discriminate. inversion E; subst.
    apply mv_same; [|apply recs_other; reflexivity]. unfold wl, live. cbn. destruct (s_pc s); reflexivity.
  - destruct (s_fut s n); try discriminate. inversion E; subst.
    apply mv_same; [|apply recs_other; reflexivity]. unfold wl, live. cbn. destruct (s_pc s); reflexivity.
  - inversion E; subst. apply mv_same; [|reflexivity]. unfold wl, live. cbn. destruct (s_pc s); reflexivity.
Qed.

Lemma moved_step c s l s' : wf_dag (c_dag c) -> Inv c s -> step c s l = Some s' -> moved s s'.
Proof.
  intros Hwf HI E.
  assert (Hl : (exists k, l = LVisThrow k) \/ forall k, l <> LVisThrow k) by (destruct l; eauto; right; discriminate).
  destruct Hl as [[k ->]|Hl]; [|eapply moved_step0; eassumption]. cbn [step] in E.
  destruct (match s_pc s with Created | Suspended _ => tick c s | Clean _ _ _ => ctl c s true | _ => None end) as [s1|] eqn:E1; [|discriminate].
  assert (HL : exists l0, step c s l0 = Some s1 /\ (forall k, l0 <> LVisThrow k)).
  { destruct (s_pc s); try discriminate; [exists LTick|exists LTick|exists LCtl]; repeat split; (exact E1 || discriminate). }
  destruct HL as [l0 [El0 Hnv]].
  pose proof (moved_step0 c s l0 s1 Hwf HI El0 Hnv) as M.
  destruct (step_log c s l0 s1 Hwf HI El0) as [new En].
  destruct (visthrow_cases s s1 k s' E) as [es [rest [Es [es2 Ees]]]].
  rewrite En, app_length, Nat.add_sub, firstn_app, Nat.sub_diag, firstn_O, app_nil_r, firstn_all in Ees.
  assert (El1 : s_log s1 = rev (es ++ es2) ++ s_log s) by (rewrite <- Ees, rev_involutive; exact En).
  assert (El : s_log s' = rev es ++ s_log s) by (rewrite Es, emits_eq; destruct s; reflexivity).
  assert (R1 : recs (s_log s1) = recs (s_log s) ++ records es ++ records es2).
  { rewrite El1. unfold recs. rewrite rev_app_distr, rev_involutive, !records_app. reflexivity. }
  assert (R : recs (s_log s') = recs (s_log s) ++ records es).
  { rewrite El. unfold recs. rewrite rev_app_distr, rev_involutive, !records_app. reflexivity. }
  assert (W : wl s' = []) by (rewrite Es; reflexivity).
  assert (N : recs (s_log s1) = recs (s_log s) -> moved s s').
  { intros X. apply mv_off; [exact W|]. rewrite R. rewrite R1 in X.
    apply (f_equal (@List.length _)) in X. rewrite !app_length in X. destruct (records es); [apply app_nil_r|cbn in X; lia]. }
  assert (N1 : forall r, recs (s_log s1) = recs (s_log s) ++ [r] -> (recs (s_log s') = recs (s_log s) ++ [r] -> moved s s') -> moved s s').
  { intros r X G. rewrite R1 in X. apply app_inv_head in X. destruct (records es) as [|x t] eqn:Er.
    - apply mv_off; [exact W|]. rewrite R. apply app_nil_r.
    - cbn in X. inversion X as [[X1 X2]]. apply app_eq_nil in X2. destruct X2 as [-> _]. subst x. apply G. exact R. }
  destruct M as [M1 M2|rec l1 l2 M1 M2 M3 M4|rec r l1 l2 M1 M2 M3 M4 M5 M6|r M1 M2 M3 M4 M5|M1 M2|rec r M1 M2 M3 M4 M5 M6|r M1 M2 M3 M4 M5];
    try (apply N; assumption).
  - apply (N1 r M3). intros X. eapply mv_off_done; try eassumption. rewrite M1. apply in_app_iff. right. left. reflexivity.
  - apply (N1 r M2). intros X. eapply mv_off_point; eassumption.
  - apply (N1 r M3). intros X. eapply mv_off_done; eassumption.
  - apply (N1 r M2). intros X. eapply mv_off_point; eassumption.
Qed.

(** ** What holds of the times *)
Definition cnt (t : Z) (rs : list run_record) : nat := List.length (filter (going_on t) rs).
Definition began (t : Z) (rs : list run_record) : nat := List.length (filter (fun r => (r_start r <=? t)%Z) rs).
Lemma cnt_app t a b : cnt t (a ++ b) = cnt t a + cnt t b.
Proof. unfold cnt. now rewrite filter_app, app_length. Qed.
Lemma began_app t a b : began t (a ++ b) = began t a + began t b.
Proof. unfold began. now rewrite filter_app, app_length. Qed.
Lemma began_len t a : began t a <= List.length a.
Proof. unfold began. apply filter_length_le. Qed.
Lemma began_cons t r l : began t (r :: l) = (if (r_start r <=? t)%Z then 1 else 0) + began t l.
Proof. unfold began. cbn. destruct (r_start r <=? t)%Z; reflexivity. Qed.
Lemma cnt_one t r : cnt t [r] = if going_on t r then 1 else 0.
Proof. unfold cnt. cbn. destruct (going_on t r); reflexivity. Qed.
Lemma cnt_none t rs : (forall r, In r rs -> (r_end r <= t)%Z) -> cnt t rs = 0.
Proof.
  intros H. unfold cnt. induction rs as [|a l IH]; [reflexivity|]. cbn. unfold going_on at 1.
  replace (t <? r_end a)%Z with false by (symmetry; apply Z.ltb_ge; apply H; left; reflexivity).
  rewrite andb_false_r. apply IH. intros r Hr. apply H. right. exact Hr.
Qed.

Definition shares (c : config) (m n : nid) : Prop := exists x, In x (node_res c m) /\ In x (node_res c n).

Record times (c : config) (s : state) : Prop := {
  tm_sorted : StronglySorted (fun a b => (r_end a <= r_end b)%Z) (recs (s_log s));
  tm_excl : forall ra rb, In ra (recs (s_log s)) -> In rb (recs (s_log s)) -> was_executed ra -> was_executed rb ->
    r_node ra <> r_node rb -> shares c (r_node ra) (r_node rb) -> (r_end ra <= r_start rb \/ r_end rb <= r_start ra)%Z;
  tm_wait : forall rec rb, In rec (wl s) -> In rb (recs (s_log s)) -> was_executed rb ->
    shares c (r_node rec) (r_node rb) -> (r_end rb <= r_start rec)%Z;
  tm_count : forall t, (t < s_clock s)%Z -> cnt t (recs (s_log s)) + began t (wl s) <= Nat.max 1 (c_threads c)
}.

Lemma wl_live c s rec : Inv c s -> In rec (wl s) -> act c s /\ In (Coro (r_node rec) (CWait rec)) (live s).
Proof.
  intros HI H. unfold wl in H. pose proof (i_pc _ _ HI) as P. unfold pc_inv in P.
  assert (A : act c s) by (destruct (s_pc s); try contradiction; apply P).
  split; [exact A|]. assert (G : In rec (flat_map wrec (live s))) by (destruct (s_pc s); try contradiction; exact H).
  apply in_flat_map in G. destruct G as ([n st] & Hk & Hr). unfold wrec in Hr. cbn in Hr. destruct st as [|r]; [destruct Hr|].
  destruct Hr as [->|[]]. destruct (w_rec _ _ _ _ _ _ (a_wait _ _ _ _ _ _ _ _ A n rec Hk)) as [x Ex].
  replace (r_node rec) with n by (rewrite Ex; reflexivity). exact Hk.
Qed.

Lemma wl_len c s : Inv c s -> List.length (wl s) <= Nat.max 1 (c_threads c).
Proof.
  intros HI. pose proof (k_bound _ _ _ _ (i_core _ _ HI)) as B.
  assert (G : List.length (flat_map wrec (live s)) <= List.length (live s)).
  { induction (live s) as [|[n [|r]] l IH]; [auto| |]; cbn in *; lia. }
  unfold wl. destruct (s_pc s); cbn [List.length]; lia.
Qed.

Lemma wl_apart c s rec rec' l1 l2 : wf_dag (c_dag c) -> Inv c s -> wl s = l1 ++ rec :: l2 -> In rec' (l1 ++ l2) -> ~ shares c (r_node rec') (r_node rec).
Proof.
  intros Hwf HI E H (x & X1 & X2).
  assert (H1 : In rec (wl s)) by (rewrite E; apply in_app_iff; right; left; reflexivity).
  assert (H2 : In rec' (wl s)) by (rewrite E; apply in_app_iff in H; apply in_app_iff; destruct H; [left|right; right]; assumption).
  destruct (wl_live c s rec HI H1) as [A L1]. destruct (wl_live c s rec' HI H2) as [_ L2].
  assert (ND : NoDup (map r_node (wl s))).
  { assert (Ew : wl s = flat_map wrec (live s)) by (revert H1; unfold wl; destruct (s_pc s); try contradiction; reflexivity).
    rewrite Ew. pose proof (act_nodup c _ _ _ _ _ _ _ (proj1 Hwf) A) as Hnd.
    apply NoDup_app_iff in Hnd. destruct Hnd as [_ [Hnd _]]. apply NoDup_app_iff in Hnd. destruct Hnd as [Hnd _].
    assert (G : forall k r, In k (live s) -> In r (wrec k) -> r_node r = co_node k).
    { intros [n st] r Hk Hr. unfold wrec in Hr. cbn in *. destruct st as [|r0]; [destruct Hr|]. destruct Hr as [->|[]].
      destruct (w_rec _ _ _ _ _ _ (a_wait _ _ _ _ _ _ _ _ A n r Hk)) as [y Ey]. rewrite Ey. reflexivity. }
    clear -Hnd G. induction (live s) as [|k l IH]; [constructor|]. cbn in *. inversion Hnd as [|? ? N1 N2]; subst.
    assert (IH' : NoDup (map r_node (flat_map wrec l))) by (apply IH; [exact N2|intros k' r Hk; apply G; right; exact Hk]).
    rewrite map_app. unfold wrec at 1. destruct (co_st k) as [|r] eqn:Ek; [exact IH'|]. cbn. constructor; [|exact IH'].
    intros X. apply N1. apply in_map_iff in X. destruct X as (r' & Er & Hr'). apply in_flat_map in Hr'. destruct Hr' as (k' & Hk' & Hr').
    rewrite (G k r) in Er; [|left; reflexivity|unfold wrec; rewrite Ek; left; reflexivity].
    rewrite <- Er, (G k' r'); [apply in_map; exact Hk'|right; exact Hk'|exact Hr']. }
  assert (Hne : r_node rec' <> r_node rec).
  { intros X. rewrite E, map_app in ND. cbn in ND. apply NoDup_remove_2 in ND. apply ND. rewrite <- X, <- map_app. apply in_map. exact H. }
  exact (a_disj _ _ _ _ _ _ _ _ A _ _ _ _ L2 L1 Hne x X1 X2).
Qed.

Lemma shares_sym c m n : shares c m n -> shares c n m.
Proof. intros (x & A & B). exists x. auto. Qed.

Lemma sorted_snoc l r : StronglySorted (fun a b => (r_end a <= r_end b)%Z) l -> (forall a, In a l -> (r_end a <= r_end r)%Z) ->
  StronglySorted (fun a b => (r_end a <= r_end b)%Z) (l ++ [r]).
Proof.
  intros H G. induction H as [|a l H IH F]; cbn; [repeat constructor|]. constructor.
  - apply IH. intros x Hx. apply G. right. exact Hx.
  - apply Forall_app. split; [exact F|]. constructor; [apply G; left; reflexivity|constructor].
Qed.

Lemma times_step c z s l s' : wf_dag (c_dag c) -> Inv c s -> stamps c z s -> times c s -> step c s l = Some s' ->
  (forall z', l = LClock z' -> (s_clock s <= z')%Z) -> times c s'.
Proof.
  intros Hwf HI [_ [[Sr _] _]] T E Hm. pose proof (step_clock_val c s l s' Hwf HI E) as Ek.
  assert (HI' : Inv c s') by (eapply step_inv; eassumption).
  assert (Hck : (s_clock s <= s_clock s')%Z) by (rewrite Ek; destruct l; try lia; apply Hm; reflexivity).
  pose proof (moved_step c s l s' Hwf HI E) as M.
  (* the count, after the clock has moved *)
  assert (HCt : recs (s_log s') = recs (s_log s) -> (forall t, began t (wl s') <= began t (wl s)) ->
     forall t, (t < s_clock s')%Z -> cnt t (recs (s_log s')) + began t (wl s') <= Nat.max 1 (c_threads c)).
  { intros R W t Ht. rewrite R. destruct (Z.lt_ge_cases t (s_clock s)) as [G|G].
    - pose proof (tm_count _ _ T t G). specialize (W t). lia.
    - rewrite cnt_none; [|intros r Hr; pose proof (Sr r Hr); lia]. pose proof (wl_len c s' HI'). pose proof (began_len t (wl s')). lia. }
  (* a record is added *)
  assert (HR : forall r, recs (s_log s') = recs (s_log s) ++ [r] -> r_end r = s_clock s ->
     (forall rb, In rb (recs (s_log s)) -> was_executed rb -> was_executed r -> shares c (r_node r) (r_node rb) -> (r_end rb <= r_start r)%Z) ->
     incl (wl s') (wl s) -> (forall rec, In rec (wl s') -> was_executed r -> ~ shares c (r_node rec) (r_node r)) ->
     (forall t, (t < s_clock s)%Z -> cnt t [r] + began t (wl s') <= began t (wl s)) ->
     s_clock s' = s_clock s -> times c s').
  { intros r R Er Hx Hi Hs Hc Hk. constructor.
    - rewrite R. apply sorted_snoc; [apply T|]. intros a Ha. rewrite Er. apply (Sr a Ha).
    - intros ra rb Ha Hb Xa Xb Hne Hsh. rewrite R in Ha, Hb. apply in_app_iff in Ha, Hb.
      destruct Ha as [Ha|[<-|[]]], Hb as [Hb|[<-|[]]].
      + apply (tm_excl _ _ T); assumption.
      + left. apply Hx; auto using shares_sym.
      + right. apply Hx; auto.
      + now destruct Hne.
    - intros rec rb Hw Hb Xb Hsh. rewrite R in Hb. apply in_app_iff in Hb. destruct Hb as [Hb|[<-|[]]].
      + apply (tm_wait _ _ T rec rb (Hi rec Hw) Hb Xb Hsh).
      + destruct (Hs rec Hw Xb Hsh).
    - intros t Ht. rewrite Hk in Ht. rewrite R, cnt_app. pose proof (tm_count _ _ T t Ht). specialize (Hc t Ht). lia. }
  destruct M as [M1 M2|rec l1 l2 M1 M2 M3 M4|rec r l1 l2 M1 M2 M3 M4 M5 M6|r M1 M2 M3 M4 M5|M1 M2|rec r M1 M2 M3 M4 M5 M6|r M1 M2 M3 M4 M5].
  - constructor.
    + rewrite M2. apply T.
    + rewrite M2. apply T.
    + rewrite M1, M2. apply T.
    + apply HCt; [exact M2|]. intros t. now rewrite M1.
  - constructor.
    + rewrite M3. apply T.
    + rewrite M3. apply T.
    + rewrite M2, M3. intros rec' rb H Hb Xb Hsh. apply in_app_iff in H. cbn in H.
      assert (H' : rec' = rec \/ In rec' (wl s)) by (rewrite M1, in_app_iff; destruct H as [H|[->|H]]; auto).
      destruct H' as [->|H']; [rewrite M4; apply (Sr rb Hb)|apply (tm_wait _ _ T); assumption].
    + intros t Ht. rewrite M3. destruct (Z.lt_ge_cases t (s_clock s)) as [G|G].
      * pose proof (tm_count _ _ T t G) as B. rewrite M1 in B. rewrite M2. rewrite began_app in *. rewrite began_cons, M4.
        replace (s_clock s <=? t)%Z with false by (symmetry; apply Z.leb_gt; exact G). lia.
      * rewrite cnt_none; [|intros r Hr; pose proof (Sr r Hr); lia]. pose proof (wl_len c s' HI'). pose proof (began_len t (wl s')). lia.
  - assert (Hin : In rec (wl s)) by (rewrite M1; apply in_app_iff; right; left; reflexivity).
    apply (HR r M3 M6).
    + intros rb Hb Xb _ Hsh. rewrite M5. apply (tm_wait _ _ T rec rb Hin Hb Xb). rewrite <- M4. exact Hsh.
    + intros x. rewrite M1, M2, !in_app_iff. cbn. tauto.
    + intros rec' H _. rewrite M2 in H. rewrite M4. exact (wl_apart c s rec rec' l1 l2 Hwf HI M1 H).
    + intros t Ht. rewrite M1, M2, !began_app, began_cons, cnt_one. unfold going_on. rewrite M5.
      destruct (r_start rec <=? t)%Z; cbn; [|lia]. destruct (t <? r_end r)%Z; lia.
    + rewrite Ek. destruct l; try reflexivity. exfalso. inversion E; subst s'. apply (f_equal (@List.length _)) in M3. rewrite app_length in M3. cbn [s_log set_clock List.length] in M3. lia.
  - apply (HR r M2 M5).
    + intros rb Hb Xb X. contradiction.
    + now rewrite M1.
    + intros rec H X. contradiction.
    + intros t Ht. rewrite M1. rewrite cnt_one. unfold going_on. rewrite M4.
      replace (s_clock s <=? t)%Z with false by (symmetry; apply Z.leb_gt; exact Ht). cbn. lia.
    + rewrite Ek. destruct l; try reflexivity. exfalso. inversion E; subst s'. apply (f_equal (@List.length _)) in M2. rewrite app_length in M2. cbn [s_log set_clock List.length] in M2. lia.
  - constructor.
    + rewrite M2. apply T.
    + rewrite M2. apply T.
    + rewrite M1. intros rec rb [].
    + apply HCt; [exact M2|]. intros t. rewrite M1. cbn. lia.
  - apply (HR r M3 M6).
    + intros rb Hb Xb _ Hsh. rewrite M5. apply (tm_wait _ _ T rec rb M2 Hb Xb). rewrite <- M4. exact Hsh.
    + rewrite M1. intros x [].
    + rewrite M1. intros x [].
    + intros t Ht. rewrite M1. change (began t []) with 0. rewrite Nat.add_0_r.
      destruct (in_split _ _ M2) as (l1 & l2 & El). rewrite El, began_app, began_cons, cnt_one. unfold going_on. rewrite M5.
      destruct (r_start rec <=? t)%Z; cbn; [|lia]. destruct (t <? r_end r)%Z; lia.
    + rewrite Ek. destruct l; try reflexivity. exfalso. inversion E; subst s'. apply (f_equal (@List.length _)) in M3. rewrite app_length in M3. cbn [s_log set_clock List.length] in M3. lia.
  - apply (HR r M2 M5).
    + intros rb Hb Xb X. contradiction.
    + rewrite M1. intros x [].
    + rewrite M1. intros x [].
    + intros t Ht. rewrite M1. rewrite cnt_one. unfold going_on. rewrite M4.
      replace (s_clock s <=? t)%Z with false by (symmetry; apply Z.leb_gt; exact Ht). cbn. lia.
    + rewrite Ek. destruct l; try reflexivity. exfalso. inversion E; subst s'. apply (f_equal (@List.length _)) in M2. rewrite app_length in M2. cbn [s_log set_clock List.length] in M2. lia.
Qed.

Lemma times_run c z : wf_dag (c_dag c) -> forall ls s s', Inv c s -> stamps c z s -> times c s ->
  monotone_clock (s_clock s) ls -> run_labels c s ls = Some s' -> times c s'.
Proof.
  intros Hwf. induction ls as [|l ls IH]; intros s s' HI HS HT Hm E; [inversion E; subst; exact HT|].
  cbn [run_labels] in E. destruct (step c s l) as [s1|] eqn:E1; [|discriminate].
  apply monotone_cons in Hm. destruct Hm as [Hm1 Hm2].
  apply (IH s1 s'); [eapply step_inv; eassumption|eapply stamps_step; eassumption|eapply times_step; eassumption| |exact E].
  rewrite (step_clock_val c s l s1 Hwf HI E1). exact Hm1.
Qed.

Lemma times_hold c z ls s : wf_dag (c_dag c) -> run_labels c (init z) ls = Some s -> monotone_clock z ls -> times c s.
Proof.
  intros Hwf E Hm. refine (times_run c z Hwf ls (init z) s (inv_init c z) _ _ Hm E).
  - split; [cbn; lia|]. split; [|exact I]. split; [intros r []|intros ra rb []].
  - constructor; cbn; try tauto.
    + constructor.
    + intros t _. lia.
Qed.

(** ** Consequences *)
Lemma few_at_once : forall c z ls s t, wf_dag (c_dag c) -> run_labels c (init z) ls = Some s -> monotone_clock z ls ->
  List.length (filter (going_on t) (records (trace s))) <= Nat.max 1 (c_threads c).
Proof.
  intros c z ls s t Hwf E Hm. pose proof (times_hold c z ls s Hwf E Hm) as T. rewrite <- recs_trace. fold (cnt t (recs (s_log s))).
  destruct (Z.lt_ge_cases t (s_clock s)) as [G|G]; [pose proof (tm_count _ _ T t G); lia|].
  rewrite cnt_none; [lia|]. intros r Hr. rewrite recs_trace in Hr. pose proof (proj1 (time_stamps c z ls s Hwf E Hm) r Hr). lia.
Qed.

Lemma end_order : forall c z ls s l1 a l2 b l3, wf_dag (c_dag c) -> run_labels c (init z) ls = Some s -> monotone_clock z ls ->
  records (trace s) = l1 ++ a :: l2 ++ b :: l3 -> (r_end a <= r_end b)%Z.
Proof.
  intros c z ls s l1 a l2 b l3 Hwf E Hm R. pose proof (tm_sorted _ _ (times_hold c z ls s Hwf E Hm)) as S. rewrite recs_trace, R in S.
  clear R. induction l1 as [|x l1 IH]; cbn in S; inversion S as [|? ? S1 F]; subst; [|exact (IH S1)].
  rewrite Forall_forall in F. apply F. apply in_app_iff. right. left. reflexivity.
Qed.

Lemma resources_apart : forall c z ls s ra rb x, wf_dag (c_dag c) -> run_labels c (init z) ls = Some s -> monotone_clock z ls ->
  In ra (records (trace s)) -> In rb (records (trace s)) -> was_executed ra -> was_executed rb -> r_node ra <> r_node rb ->
  In x (node_res c (r_node ra)) -> In x (node_res c (r_node rb)) -> (r_end ra <= r_start rb \/ r_end rb <= r_start ra)%Z.
Proof.
  intros c z ls s ra rb x Hwf E Hm Ha Hb Xa Xb Hne X1 X2. rewrite <- recs_trace in Ha, Hb.
  apply (tm_excl _ _ (times_hold c z ls s Hwf E Hm)); auto. exists x. auto.
Qed.

Section Sum.
Open Scope Z_scope.
Definition clip (h : Z) (r : run_record) : Z := Z.min (r_end r) h - Z.min (r_start r) h.
Definition clips (h : Z) (rs : list run_record) : Z := fold_right (fun r k => clip h r + k) 0 rs.
Lemma clips_next h rs : (forall r, In r rs -> r_start r <= r_end r) -> clips (h + 1) rs = clips h rs + Z.of_nat (cnt h rs).
Proof.
  intros H. induction rs as [|a l IH]; [reflexivity|].
  cbn [clips fold_right]. fold (clips (h + 1) l). fold (clips h l). rewrite IH by (intros r Hr; apply H; right; exact Hr).
  assert (Ha : r_start a <= r_end a) by (apply H; left; reflexivity).
  change (a :: l) with ([a] ++ l). rewrite cnt_app, cnt_one, Nat2Z.inj_add. unfold clip, going_on.
  destruct (Z.leb_spec (r_start a) h), (Z.ltb_spec h (r_end a)); cbn [andb]; lia.
Qed.
Lemma clips_bound N lo rs : (forall r, In r rs -> lo <= r_start r /\ r_start r <= r_end r) ->
  (forall t, (cnt t rs <= N)%nat) -> forall n, clips (lo + Z.of_nat n) rs <= Z.of_nat N * Z.of_nat n.
Proof.
  intros H HN n. induction n as [|n IH].
  - rewrite Z.mul_0_r, Z.add_0_r. clear HN. induction rs as [|a l IH]; [cbn; lia|]. cbn [clips fold_right]. fold (clips lo l).
    specialize (IH (fun r Hr => H r (or_intror Hr))). pose proof (H a (or_introl eq_refl)). unfold clip. lia.
  - replace (lo + Z.of_nat (S n)) with (lo + Z.of_nat n + 1) by lia. rewrite clips_next by (intros r Hr; apply H; exact Hr).
    specialize (HN (lo + Z.of_nat n)). nia.
Qed.
Lemma clips_all hi rs : (forall r, In r rs -> r_start r <= r_end r /\ r_end r <= hi) -> clips hi rs = busy_time rs.
Proof.
  intros H. induction rs as [|a l IH]; [reflexivity|]. cbn [clips busy_time fold_right]. fold (clips hi l). fold (busy_time l).
  rewrite (IH (fun r Hr => H r (or_intror Hr))). pose proof (H a (or_introl eq_refl)). unfold clip, duration. lia.
Qed.

Lemma busy_bound : forall c z ls s lo hi, wf_dag (c_dag c) -> run_labels c (init z) ls = Some s -> monotone_clock z ls ->
  lo <= hi -> within_times lo hi (records (trace s)) -> busy_time (records (trace s)) <= Z.of_nat (Nat.max 1 (c_threads c)) * (hi - lo).
Proof.
  intros c z ls s lo hi Hwf E Hm Hl W. pose proof (proj1 (time_stamps c z ls s Hwf E Hm)) as S.
  rewrite <- (clips_all hi) by (intros r Hr; split; [apply (S r Hr)|apply (W r Hr)]).
  replace hi with (lo + Z.of_nat (Z.to_nat (hi - lo))) at 1 by lia.
  replace (hi - lo) with (Z.of_nat (Z.to_nat (hi - lo))) at 2 by lia.
  apply clips_bound; [intros r Hr; split; [apply (W r Hr)|apply (S r Hr)]|].
  intros t. exact (few_at_once c z ls s t Hwf E Hm).
Qed.

Lemma path_sum (after : run_record -> run_record -> Prop) hi rs : (forall a b, In a rs -> In b rs -> after b a -> r_end a <= r_start b) ->
  (forall r, In r rs -> r_start r <= r_end r /\ r_end r <= hi) -> each_after after rs ->
  match rs with a :: _ => busy_time rs <= hi - r_start a | [] => True end.
Proof.
  induction rs as [|a [|b l] IH]; intros H1 H2 H3; [exact I| |].
  - pose proof (H2 a (or_introl eq_refl)). cbn. unfold duration. lia.
  - destruct H3 as [H3 H4].
    pose proof (IH (fun x y Hx Hy => H1 x y (or_intror Hx) (or_intror Hy)) (fun x Hx => H2 x (or_intror Hx)) H4) as G. cbn in G.
    pose proof (H1 a b (or_introl eq_refl) (or_intror (or_introl eq_refl)) H3). pose proof (H2 a (or_introl eq_refl)).
    change (busy_time (a :: b :: l)) with (duration a + busy_time (b :: l)). change (duration b + fold_right (fun r k => duration r + k) 0 l) with (busy_time (b :: l)) in G.
    unfold duration at 1. lia.
Qed.

Lemma path_bound : forall c z ls s lo hi rs, wf_dag (c_dag c) -> run_labels c (init z) ls = Some s -> monotone_clock z ls ->
  lo <= hi -> within_times lo hi (records (trace s)) -> incl rs (records (trace s)) ->
  each_after (fun b a => runs_after (c_dag c) (r_node b) (r_node a)) rs -> busy_time rs <= hi - lo.
Proof.
  intros c z ls s lo hi rs Hwf E Hm Hl W Hi Hc. destruct (time_stamps c z ls s Hwf E Hm) as [S1 S2].
  pose proof (path_sum _ hi rs (fun a b Ha Hb => S2 b a (Hi b Hb) (Hi a Ha))
    (fun r Hr => conj (proj1 (proj2 (S1 r (Hi r Hr)))) (proj2 (W r (Hi r Hr)))) Hc) as G.
  destruct rs as [|a l]; [cbn; lia|]. pose proof (W a (Hi a (or_introl eq_refl))). lia.
Qed.
End Sum.
