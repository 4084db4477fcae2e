(** The number of ticks of a parallel execution (C90). *)
From Coq Require Import Lia String Permutation Relations.
From Verif Require Import Model.Common Model.Records Model.Jobs Model.TaskSet Model.Dag
     Model.Sched Model.Exec Spec.Graph Spec.Trace Spec.Parallel
     Proofs.Sets Proofs.SchedFacts Proofs.InvalFacts Proofs.TraceFacts Proofs.ExecInv
     Proofs.ExecStep Proofs.ExecCtl Proofs.LogFacts Proofs.ExecProps Proofs.ExecProps2
     Proofs.StepCases Proofs.ExecProps3 Proofs.Ticks Proofs.Dispatch.
Open Scope nat_scope.
Open Scope list_scope.

(** * A chain that covers all moments *)
Section Cover.
Variable X : Type.
Variables (todo wait : X -> nid -> bool).
Variable link : nid -> nid -> Prop.
Hypothesis excl : forall x u, wait x u = true -> todo x u = false.
Definition earlier (y x : X) : Prop := forall u, wait x u = true -> todo y u = true \/ wait y u = true.
Definition count (u : nid) (p : list X) : nat := List.length (filter (fun x => wait x u) p).

Fixpoint linked (t : nid) (l : list nid) : Prop :=
  match l with [] => True | u :: r => link t u /\ linked u r end.

Lemma fop_filter {A} (R : A -> A -> Prop) f l : ForallOrdPairs R l -> ForallOrdPairs R (filter f l).
Proof.
  induction 1 as [|a l H _ IH]; [constructor|]. cbn. destruct (f a); [|exact IH]. constructor; [|exact IH].
  rewrite Forall_forall in *. intros x Hx. apply filter_In in Hx. apply H, Hx.
Qed.
Lemma fop_last {A} (R : A -> A -> Prop) l x : ForallOrdPairs R (l ++ [x]) -> Forall (fun y => R y x) l.
Proof.
  induction l as [|a l IH]; intros H; [constructor|]. inversion H as [|? ? H1 H2]; subst. constructor; [|exact (IH H2)].
  rewrite Forall_forall in H1. apply H1, in_app_iff. right. left. reflexivity.
Qed.
Lemma count_filter u f p : count u (filter f p) <= count u p.
Proof.
  unfold count. induction p as [|x p IH]; [apply le_n|]. cbn [filter]. destruct (f x); cbn [filter]; destruct (wait x u); cbn [List.length]; try lia.
Qed.
Lemma sum_le {A} (f g : A -> nat) l : (forall x, In x l -> f x <= g x) -> list_sum (map f l) <= list_sum (map g l).
Proof.
  unfold list_sum. induction l as [|x l IH]; intros H; cbn [map fold_right]; [lia|]. pose proof (H x (or_introl eq_refl)).
  specialize (IH (fun y Hy => H y (or_intror Hy))). lia.
Qed.
Lemma split_count u p : (forall x, In x p -> todo x u = true \/ wait x u = true) ->
  List.length p <= List.length (filter (fun x => todo x u) p) + count u p.
Proof.
  unfold count. induction p as [|x p IH]; intros H; [cbn; lia|]. cbn [filter].
  assert (IH' := IH (fun y Hy => H y (or_intror Hy))).
  destruct (H x (or_introl eq_refl)) as [E|E]; rewrite E; [destruct (wait x u)|destruct (todo x u)]; cbn; lia.
Qed.

Lemma cover : forall k t p, List.length p <= k -> ForallOrdPairs earlier p ->
  (forall x t, In x p -> todo x t = true -> exists u, wait x u = true /\ link t u) ->
  (forall x, In x p -> todo x t = true) ->
  exists l, linked t l /\ List.length p <= list_sum (map (fun u => count u p) l).
Proof.
  induction k as [|k IH]; intros t p Hk Ho Hb Ht.
  - exists []. split; [exact I|]. cbn. exact Hk.
  - destruct (rev p) as [|x p'] eqn:Ep.
    { apply (f_equal (@rev X)) in Ep. rewrite rev_involutive in Ep. subst p. exists []. split; [exact I|]. cbn. lia. }
    apply (f_equal (@rev X)) in Ep. rewrite rev_involutive in Ep. cbn in Ep.
    assert (Hx : In x p) by (rewrite Ep; apply in_app_iff; right; left; reflexivity).
    destruct (Hb x t Hx (Ht x Hx)) as (u & Hu & Hl).
    assert (Hall : forall y, In y p -> todo y u = true \/ wait y u = true).
    { intros y Hy. rewrite Ep in Hy, Ho. apply in_app_iff in Hy. destruct Hy as [Hy|[<-|[]]]; [|auto].
      apply fop_last in Ho. rewrite Forall_forall in Ho. exact (Ho y Hy u Hu). }
    set (q := filter (fun y => todo y u) p).
    assert (Hq : List.length q < List.length p).
    { unfold q. rewrite Ep, filter_app. cbn. rewrite (excl x u Hu). rewrite app_nil_r, app_length. cbn.
      assert (F : forall l, List.length (filter (fun y => todo y u) l) <= List.length l).
      { intros l. induction l as [|y l IHl]; [cbn; lia|]. cbn. destruct (todo y u); cbn; lia. }
      pose proof (F (rev p')). lia. }
    destruct (IH u q) as (l & Hc & Hs).
    + lia.
    + apply fop_filter, Ho.
    + intros y t' Hy. apply Hb. apply filter_In in Hy. apply Hy.
    + intros y Hy. apply filter_In in Hy. apply Hy.
    + exists (u :: l). split; [split; [exact Hl|exact Hc]|]. cbn [map list_sum fold_right].
      change (fold_right plus 0 (map (fun v => count v p) l)) with (list_sum (map (fun v => count v p) l)).
      assert (list_sum (map (fun v => count v q) l) <= list_sum (map (fun v => count v p) l))
        by (apply sum_le; intros v _; apply count_filter).
      pose proof (split_count u p Hall). fold q in H0. lia.
Qed.
End Cover.

(** * Moments at which tick() is called *)
Definition freshc (k : coro) : bool := match co_st k with CFresh => true | CWait _ => false end.
Definition freshb (s : state) : bool := existsb freshc (live s).
Definition waitl (u : nid) (ks : list coro) : bool := existsb (fun k => (co_node k =? u) && negb (freshc k)) ks.
Definition recb (u : nid) (log : list event) : bool := existsb (fun r => r_node r =? u) (recs log).
Definition tmu (u : nid) (log : list event) : nat :=
  List.length (filter (fun e => match e with ETimeout m => m =? u | _ => false end) log).

(** 0: the first call, 1: a task is begun, 2: the last call, 3: all threads taken, 4: waiting *)
Definition kind (c : config) (s : state) : nat :=
  match s_pc s with
  | Created => 0
  | Suspended _ => if freshb s then 1
                   else match s_coros s with
                        | [] => 2
                        | _ => match s_todo s with
                               | [] => 4
                               | _ => if (c_threads c <=? List.length (s_coros s)) && negb (c_threads c =? 0) then 3 else 4
                               end
                        end
  | _ => 5
  end.
Definition num (c : config) (k : nat) (H : list state) : nat := List.length (filter (fun x => kind c x =? k) H).
Definition cw (u : nid) (H : list state) : nat := List.length (filter (fun x => waitl u (live x)) H).
Definition N_of (c : config) : nat := List.length (node_ids (c_dag c)).

Definition J (c : config) (H : list state) (s : state) : Prop :=
  match s_pc s with
  | Created => H = []
  | Suspended ph => (num c 0 H <= 1 /\ num c 2 H = 0 /\ num c 5 H = 0 /\
      num c 1 H + List.length (s_todo s) + (if freshb s then 1 else 0) <= N_of c /\ (ph = PMain -> s_coros s <> [])) /\
      forall u, cw u H <= tmu u (s_log s) + (if recb u (s_log s) then 1 else 0)
  | Clean _ _ rest => (num c 0 H <= 1 /\ num c 2 H = 0 /\ num c 5 H = 0 /\ num c 1 H + List.length (s_todo s) <= N_of c) /\
      forall u, cw u H <= tmu u (s_log s) + (if recb u (s_log s) || waitl u (map sl_coro rest) then 1 else 0)
  | Finished => (num c 0 H <= 1 /\ num c 2 H <= 1 /\ num c 5 H = 0 /\ num c 1 H <= N_of c) /\
      forall u, cw u H <= tmu u (s_log s) + 1
  | _ => True
  end.

Definition snap (l : label) (s : state) (H : list state) : list state := if is_tick l then H ++ [s] else H.

Lemma num_app c k H x : num c k (H ++ [x]) = num c k H + (if kind c x =? k then 1 else 0).
Proof. unfold num. rewrite filter_app, app_length. cbn. destruct (kind c x =? k); reflexivity. Qed.
Lemma cw_app u H x : cw u (H ++ [x]) = cw u H + (if waitl u (live x) then 1 else 0).
Proof. unfold cw. rewrite filter_app, app_length. cbn. destruct (waitl u (live x)); reflexivity. Qed.
Lemma tmu_cons u e log : tmu u (e :: log) = (match e with ETimeout m => if m =? u then 1 else 0 | _ => 0 end) + tmu u log.
Proof. unfold tmu. cbn. destruct e; try reflexivity. destruct (n =? u); reflexivity. Qed.
Lemma tmu_app u a b : tmu u (a ++ b) = tmu u a + tmu u b.
Proof. unfold tmu. rewrite filter_app, app_length. reflexivity. Qed.
Lemma waitl_In u ks : waitl u ks = true <-> exists rec, In (Coro u (CWait rec)) ks.
Proof.
  unfold waitl. rewrite existsb_exists. split.
  - intros ([m st] & Hin & E). apply andb_true_iff in E. destruct E as [E1 E2]. apply Nat.eqb_eq in E1. cbn in *. subst m.
    destruct st as [|rec]; [discriminate|]. eauto.
  - intros (rec & Hin). eexists. split; [exact Hin|]. cbn. rewrite Nat.eqb_refl. reflexivity.
Qed.
Lemma recb_true u log : recb u log = true <-> recorded_l log u.
Proof.
  unfold recb, recorded_l. rewrite existsb_exists. split; intros (r & H1 & H2); exists r; split; auto; apply Nat.eqb_eq; exact H2.
Qed.
Lemma recb_other u e log : (forall er r x, e <> EAfterRun er r x) -> recb u (e :: log) = recb u log.
Proof. intros H. unfold recb. rewrite recs_other; [reflexivity|]. destruct e; try reflexivity. destruct (H er r n eq_refl). Qed.
Lemma freshb_wait s : freshb s = false <-> forall k, In k (live s) -> is_wait k.
Proof.
  unfold freshb, is_wait. split.
  - intros E [m st] Hin. destruct st as [|rec]; [|eexists; reflexivity].
    assert (existsb freshc (live s) = true) by (apply existsb_exists; eexists; split; [exact Hin|reflexivity]). congruence.
  - intros H. destruct (existsb freshc (live s)) eqn:E; [|reflexivity]. apply existsb_exists in E.
    destruct E as (k & Hin & Ek). destruct (H k Hin) as [rec Er]. unfold freshc in Ek. rewrite Er in Ek. discriminate.
Qed.

Lemma act_length c s : act c s -> List.length (s_todo s) <= N_of c.
Proof.
  intros A. pose proof (Permutation_length (a_perm _ _ _ _ _ _ _ _ A)) as E. rewrite !app_length, map_length in E.
  unfold N_of. lia.
Qed.
Lemma recb_cons u e log : recb u log = true -> recb u (e :: log) = true.
Proof.
  rewrite !recb_true. intros (r & H1 & H2). exists r. split; [|exact H2]. unfold recs in *. cbn [rev]. rewrite records_app.
  apply in_app_iff. left. exact H1.
Qed.
Lemma recb_after u er r x log : recb u (EAfterRun er r x :: log) = recb u log || (r_node r =? u).
Proof. unfold recb, recs. cbn [rev]. rewrite records_app, existsb_app. cbn. rewrite orb_false_r. reflexivity. Qed.
Lemma waitl_cons u k ks : waitl u (k :: ks) = (co_node k =? u) && negb (freshc k) || waitl u ks.
Proof. reflexivity. Qed.

Lemma J_env c H s s' new : J c H s -> s_pc s' = s_pc s -> s_todo s' = s_todo s -> s_coros s' = s_coros s ->
  s_log s' = new ++ s_log s -> (forall u, recb u (s_log s') = recb u (s_log s)) -> J c H s'.
Proof.
  unfold J, freshb, live. intros HJ -> -> -> El Er.
  assert (Ht : forall u, tmu u (s_log s) <= tmu u (s_log s')) by (intros u; rewrite El, tmu_app; lia).
  destruct (s_pc s); try exact HJ.
  - split; [apply HJ|]. intros u. rewrite Er. pose proof (proj2 HJ u). specialize (Ht u). lia.
  - split; [apply HJ|]. intros u. rewrite Er. pose proof (proj2 HJ u). specialize (Ht u). lia.
  - split; [apply HJ|]. intros u. pose proof (proj2 HJ u). specialize (Ht u). lia.
Qed.

Lemma J_tick c H s s' : wf_dag (c_dag c) -> Inv c s -> J c H s -> tick c s = Some s' -> J c (H ++ [s]) s'.
Proof.
  intros Hwf HI HJ E. pose proof (i_pc _ _ HI) as P. unfold pc_inv in P.
  assert (HI' : Inv c s') by (apply (step_inv c Hwf s LTick s' HI); exact E).
  pose proof (i_pc _ _ HI') as P'. unfold pc_inv in P'.
  unfold tick in E. unfold J in HJ. destruct (s_pc s) as [|ph| | | | | | |] eqn:Epc; try discriminate.
  - subst H. assert (Hk : kind c s = 0) by (unfold kind; rewrite Epc; reflexivity).
    assert (Hcw : forall u, cw u ([] ++ [s]) = 0).
    { intros u. destruct P as (_ & _ & _ & Pc & _). rewrite cw_app. unfold live. rewrite Epc, Pc. reflexivity. }
    assert (N0 : num c 0 ([] ++ [s]) <= 1 /\ num c 2 ([] ++ [s]) = 0 /\ num c 5 ([] ++ [s]) = 0 /\ num c 1 ([] ++ [s]) = 0)
      by (rewrite !num_app, Hk; cbn; lia).
    destruct N0 as (N0 & N2 & N5 & N1). inversion E; subst s'.
    destruct (start_spec c Hwf s HI Epc) as [R [_ [Rc _]]].
    inversion R as [? ? cyc L1 L2 L3|? ? m pre post L2 L1 L3 L4 L5 L6 L7|? ? m pre post L2 L1 L3 L4 L5 L6 L7
               |? ? s1 evd todo Es T1 El Ep Et Hso Ec].
    + unfold J. rewrite L2. exact I.
    + unfold J. rewrite L2. exact I.
    + unfold J. rewrite L2. exact I.
    + subst. rewrite Es in P' |- *. unfold main_top, drain_top in *. rewrite Ec in *.
      destruct (s_todo s1) as [|t ts] eqn:Et; unfold J; cbn [s_pc set_pc emit s_log s_todo] in *.
      * split; [lia|]. intros u. rewrite Hcw. lia.
      * rewrite N1. destruct P' as [A _]. pose proof (act_length c _ A) as HL. cbn [s_todo set_pc emit] in HL.
        split; [lia|]. intros u. rewrite Hcw. lia.
  - destruct P as [A _]. destruct HJ as ((K0 & K2 & K5 & K1 & Kc) & J2).
    assert (Hlive : live s = map sl_coro (s_coros s)) by (unfold live; rewrite Epc; reflexivity).
    assert (Hk : kind c s <> 0 /\ kind c s <> 5 /\ (kind c s =? 1) = freshb s /\ (s_coros s <> [] -> kind c s <> 2)).
    { unfold kind. rewrite Epc. destruct (freshb s); [repeat split; discriminate|].
      destruct (s_coros s); [repeat split; try discriminate; congruence|].
      destruct (s_todo s); [repeat split; discriminate|]. destruct (_ && _); repeat split; discriminate. }
    destruct Hk as (Hk0 & Hk5 & Hk1 & Hk2).
    assert (M0 : num c 0 (H ++ [s]) <= 1) by (rewrite num_app; apply Nat.eqb_neq in Hk0; rewrite Hk0; lia).
    assert (M5 : num c 5 (H ++ [s]) = 0) by (rewrite num_app; apply Nat.eqb_neq in Hk5; rewrite Hk5; lia).
    assert (M1 : num c 1 (H ++ [s]) + List.length (s_todo s) <= N_of c) by (rewrite num_app, Hk1; lia).
    assert (M2 : num c 2 (H ++ [s]) <= 1) by (rewrite num_app; destruct (kind c s =? 2); lia).
    assert (M2' : s_coros s <> [] -> num c 2 (H ++ [s]) = 0)
      by (intros Hc; rewrite num_app; specialize (Hk2 Hc); apply Nat.eqb_neq in Hk2; rewrite Hk2; lia).
    assert (W : forall u, cw u (H ++ [s]) <= tmu u (s_log s) + (if recb u (s_log s) || waitl u (map sl_coro (s_coros s)) then 1 else 0)).
    { intros u. rewrite cw_app. specialize (J2 u). rewrite Hlive. destruct (waitl u (map sl_coro (s_coros s))) eqn:Ew.
      - assert (Hr : recb u (s_log s) = false).
        { destruct (recb u (s_log s)) eqn:Er; [|reflexivity]. exfalso. apply recb_true in Er.
          apply waitl_In in Ew. destruct Ew as [rec Ew]. eapply (act_lv_not_recorded c); [apply Hwf|exact A| |exact Er].
          rewrite Hlive. apply in_map_iff. eexists. split; [|exact Ew]. reflexivity. }
        rewrite Hr in *. cbn [orb]. lia.
      - rewrite orb_false_r. lia. }
    assert (D : J c (H ++ [s]) (drain_top s)).
    { unfold drain_top, J. destruct (s_coros s) as [|sl cs] eqn:Ec; cbn [s_pc set_pc s_log emit s_todo].
      - split; [repeat split; lia|]. intros u. specialize (W u). cbn [map waitl existsb] in W. rewrite orb_false_r in W. rewrite tmu_cons.
        destruct (recb u (s_log s)); lia.
      - split; [repeat split; try lia; apply M2'; discriminate|]. exact W. }
    destruct ph; inversion E; subst s'; [|exact D].
    unfold main_top. destruct (s_todo s) as [|t ts] eqn:Et; [exact D|].
    unfold J. cbn [s_pc set_pc s_log emit s_todo]. rewrite Et. split.
    + repeat split; try lia; apply M2', Kc; reflexivity.
    + intros u. rewrite tmu_cons, recb_other by discriminate. cbn [Nat.add]. apply W.
  - inversion E; subst s'. exact I.
  - inversion E; subst s'. exact I.
Qed.

Lemma J_complete c H s s0 ph kept sl rest n rec new :
  J c H s -> s_pc s = Clean ph kept (sl :: rest) -> co_node (sl_coro sl) = n -> r_node rec = n ->
  s_todo s0 = s_todo s -> s_log s0 = new ++ s_log s -> (forall u, recb u (s_log s0) = recb u (s_log s)) ->
  J c H (complete s0 ph kept sl rest rec).
Proof.
  intros HJ Epc Hn Hr Ht El Er. unfold J in *. rewrite Epc in HJ. unfold complete. cbn [s_pc set_pc s_log emit s_todo set_erec] in *. rewrite Ht.
  split; [apply HJ|]. intros u. rewrite recb_after, Er, tmu_cons, El, tmu_app, Hr. destruct HJ as [_ J2]. specialize (J2 u).
  cbn [map] in J2. rewrite waitl_cons, Hn in J2.
  destruct (recb u (s_log s)), (n =? u), (waitl u (map sl_coro rest)), (freshc (sl_coro sl)); cbn [andb orb negb] in *; lia.
Qed.

Lemma J_ctl c H s s' : wf_dag (c_dag c) -> Inv c s -> J c H s -> ctl c s true = Some s' -> J c H s'.
Proof.
  intros Hwf HI HJ E. pose proof (i_pc _ _ HI) as P. unfold pc_inv in P.
  destruct (ctl_cases c s s' HI E) as
      [ph kept sl rest n s' Epc Esl _ Es|ph kept sl rest n s' Epc Esl _ _ Es
      |ph kept sl rest n s1 s' Epc Esl _ _ Es1 Es|ph kept sl rest n rec s' Epc Esl _ Es
      |ph kept sl rest n rec s' Epc Esl _ Es|ph kept sl rest n rec o s1 s2 s' Epc Esl _ Es1 Es2 Es
      |kept s1 s' Epc Es1 Es|kept s1 s' Epc Es1 Es|e s' Epc Es|e sl rest s' Epc _ Es|s' Epc Es|sl rest s' Epc _ Es].
  - subst s'. eapply (J_complete c H s _ ph kept sl rest n _ [_]); [exact HJ|exact Epc|rewrite Esl; reflexivity|reflexivity|reflexivity|reflexivity|].
    intros u. apply recb_other; discriminate.
  - subst s'. eapply (J_complete c H s _ ph kept sl rest n _ [_]); [exact HJ|exact Epc|rewrite Esl; reflexivity|reflexivity|reflexivity|reflexivity|].
    intros u. apply recb_other; discriminate.
  - subst s' s1. unfold J in *. rewrite Epc in HJ. cbn [s_pc set_pc s_log emit s_todo set_fut set_used set_started set_ns] in *.
    split; [apply HJ|]. intros u. destruct HJ as [_ J2]. specialize (J2 u). rewrite !tmu_cons, !recb_other by discriminate. cbn [map sl_coro] in *.
    rewrite waitl_cons in *. rewrite Esl in J2. cbn [freshc co_st co_node negb andb] in *. rewrite andb_false_r in J2. cbn [orb] in J2.
    destruct (recb u (s_log s)), (n =? u), (waitl u (map sl_coro rest)); cbn in *; lia.
  - subst s'. eapply (J_env c H s _ [_]); [exact HJ|reflexivity..|]. intros u. apply recb_other; discriminate.
  - subst s'. unfold J in *. rewrite Epc in HJ. cbn [s_pc set_pc s_log emit s_todo] in *.
    split; [apply HJ|]. intros u. destruct HJ as [_ J2]. specialize (J2 u). rewrite !tmu_cons, !recb_other by discriminate. cbn [map] in *.
    rewrite waitl_cons in J2. rewrite Esl in J2. cbn [freshc co_st co_node negb andb] in *. rewrite andb_true_r in J2.
    destruct (recb u (s_log s)), (n =? u), (waitl u (map sl_coro rest)); cbn [orb] in *; lia.
  - rewrite Epc in P. destruct P as [A _].
    assert (Hin : In (Coro n (CWait rec)) (live s)).
    { unfold live. rewrite Epc. apply in_app_iff. right. left. exact Esl. }
    destruct (w_rec _ _ _ _ _ _ (a_wait _ _ _ _ _ _ _ _ A n rec Hin)) as [z0 Ez].
    subst s'. eapply (J_complete c H s _ ph kept sl rest n _ [_]); [exact HJ|exact Epc|rewrite Esl; reflexivity|subst rec; reflexivity| | |].
    1,2: subst s2 s1; destruct (negb _); reflexivity.
    intros u. subst s2 s1. destruct (negb _); apply recb_other; discriminate.
  - subst s1. rewrite Epc in P. destruct P as [A [_ [Pw [P2 _]]]]. cbn [List.length] in P2.
    assert (Hc : map sl_coro (compact (s_coros s) kept) = kept) by (apply compact_coros; lia).
    unfold J in HJ. rewrite Epc in HJ. destruct HJ as [(K0 & K2 & K5 & K1) J2].
    assert (J2' : forall u, cw u H <= tmu u (s_log s) + (if recb u (s_log s) then 1 else 0)).
    { intros u. specialize (J2 u). cbn [map waitl existsb] in J2. rewrite orb_false_r in J2. exact J2. }
    assert (HF : freshb (set_pc (set_coros s (compact (s_coros s) kept)) (Suspended PMain)) = false).
    { apply freshb_wait. unfold live. cbn [s_pc set_pc s_coros set_coros]. rewrite Hc. exact Pw. }
    destruct (dispatch_cases c s kept s' Hwf HI Epc Es) as [s' E1 E2 E3 E4|m0 s' E1 E2 E3 E4|s' E1 E2 E3]; clear Es; subst s'.
    + unfold J. rewrite HF. cbn [s_pc set_pc s_todo set_coros s_log s_coros] in *. split; [repeat split; auto; lia|exact J2'].
    + cbn [s_todo set_coros s_coros] in *. pose proof (erase_length m0 (s_todo s) (a_sorted _ _ _ _ _ _ _ _ A) E2) as El.
      unfold J. cbn [s_pc set_pc s_todo set_coros s_log s_coros set_todo]. split; [|exact J2'].
      repeat split; auto; [|intros _; destruct (compact (s_coros s) kept); discriminate].
      unfold set_erase, nid in *. match goal with |- context [if ?b then _ else _] => destruct b end; lia.
    + unfold J. rewrite HF. cbn [s_pc set_pc s_todo set_coros s_log s_coros] in *. split; [repeat split; auto; lia|exact J2'].
  - subst s1 s'. rewrite Epc in P. destruct P as [A [_ [Pw [P2 _]]]]. cbn [List.length] in P2.
    assert (Hc : map sl_coro (compact (s_coros s) kept) = kept) by (apply compact_coros; lia).
    unfold J in HJ. rewrite Epc in HJ. destruct HJ as [(K0 & K2 & K5 & K1) J2].
    assert (HF : freshb (set_pc (set_coros s (compact (s_coros s) kept)) (Suspended PDrain)) = false).
    { apply freshb_wait. unfold live. cbn [s_pc set_pc s_coros set_coros]. rewrite Hc. exact Pw. }
    unfold J. rewrite HF. cbn [s_pc set_pc s_todo set_coros s_log s_coros] in *. split; [repeat split; auto; try lia; discriminate|].
    intros u. specialize (J2 u). cbn [map waitl existsb] in J2. rewrite orb_false_r in J2. exact J2.
  - subst s'. exact I.
  - subst s'. exact I.
  - subst s'. exact I.
  - subst s'. exact I.
Qed.

Lemma J_step c s l s' H : wf_dag (c_dag c) -> Inv c s -> J c H s -> step c s l = Some s' -> J c (snap l s H) s'.
Proof.
  intros Hwf HI HJ E. unfold snap. destruct l; cbn [is_tick]; cbn [step] in E.
  - apply (J_tick c H s s' Hwf HI HJ E).
  - destruct (s_pc s); try discriminate; inversion E; subst; exact I.
  - apply (J_ctl c H s s' Hwf HI HJ E).
  - destruct (launchfail_cases c s s' HI E) as [ph [kept [sl [rest [n [Epc [_ [_ [Ep _]]]]]]]]].
    unfold J. rewrite Ep. exact I.
  - assert (Hpc : exists rest, s_pc s' = Unwind ExcVisitor rest).
    { destruct (match s_pc s with Created | Suspended _ => tick c s | Clean _ _ _ => ctl c s true | _ => None end) as [s1|]; [|discriminate].
      unfold visitor_throws in E. destruct (cut_at k _) as [es|]; [|discriminate]. inversion E. eexists. reflexivity. }
    destruct Hpc as [rest Ep]. unfold J. rewrite Ep. exact I.
  - destruct (s_fut s n); try discriminate. inversion E; subst.
    eapply (J_env c H s _ [_]); [exact HJ|reflexivity..|]. intros u. apply recb_other; discriminate.
  - destruct (s_fut s n); try discriminate. inversion E; subst.
    eapply (J_env c H s _ [_]); [exact HJ|reflexivity..|]. intros u. apply recb_other; discriminate.
  - inversion E; subst. eapply (J_env c H s _ []); [exact HJ|reflexivity..|]. intros u. reflexivity.
Qed.

(** * All calls of tick() of an execution *)
Fixpoint snaps (c : config) (s : state) (ls : list label) : list state :=
  match ls with
  | [] => []
  | l :: ls => match step c s l with
               | Some s1 => (if is_tick l then [s] else []) ++ snaps c s1 ls
               | None => []
               end
  end.

Lemma J_run c : wf_dag (c_dag c) -> forall ls s s' H, Inv c s -> J c H s -> run_labels c s ls = Some s' ->
  J c (H ++ snaps c s ls) s'.
Proof.
  intros Hwf. induction ls as [|l ls IH]; intros s s' H HI HJ E; cbn in *.
  - inversion E; subst. rewrite app_nil_r. exact HJ.
  - destruct (step c s l) as [s1|] eqn:E1; [|discriminate].
    rewrite app_assoc. replace (H ++ (if is_tick l then [s] else [])) with (snap l s H)
      by (unfold snap; destruct (is_tick l); [reflexivity|symmetry; apply app_nil_r]).
    apply IH; [eapply step_inv; eassumption|eapply J_step; eassumption|exact E].
Qed.
Lemma snaps_length c : forall ls s s', run_labels c s ls = Some s' -> List.length (snaps c s ls) = ticks ls.
Proof.
  induction ls as [|l ls IH]; intros s s' E; cbn in *; [reflexivity|].
  destruct (step c s l) as [s1|] eqn:E1; [|discriminate]. unfold ticks. cbn [filter]. rewrite app_length, (IH s1 s' E).
  destruct (is_tick l); reflexivity.
Qed.
Lemma snaps_run c : forall ls s s' x, run_labels c s ls = Some s' -> In x (snaps c s ls) ->
  exists l1 l2, run_labels c s l1 = Some x /\ run_labels c x l2 = Some s'.
Proof.
  induction ls as [|l ls IH]; intros s s' x E Hx; cbn in *; [destruct Hx|].
  destruct (step c s l) as [s1|] eqn:E1; [|discriminate]. apply in_app_iff in Hx. destruct Hx as [Hx|Hx].
  - destruct (is_tick l); [|destruct Hx]. destruct Hx as [<-|[]]. exists [], (l :: ls). cbn. rewrite E1. auto.
  - destruct (IH s1 s' x E Hx) as (l1 & l2 & H1 & H2). exists (l :: l1), l2. cbn. rewrite E1. auto.
Qed.
Lemma snaps_order c : wf_dag (c_dag c) -> forall ls s s', Inv c s -> run_labels c s ls = Some s' ->
  ForallOrdPairs (fun y x => exists new, s_log x = new ++ s_log y) (snaps c s ls).
Proof.
  intros Hwf. induction ls as [|l ls IH]; intros s s' HI E; cbn in *; [constructor|].
  destruct (step c s l) as [s1|] eqn:E1; [|discriminate].
  assert (HI1 : Inv c s1) by (eapply step_inv; eassumption).
  specialize (IH s1 s' HI1 E). destruct (is_tick l); [|exact IH]. cbn. constructor; [|exact IH].
  rewrite Forall_forall. intros x Hx. destruct (snaps_run c ls s1 s' x E Hx) as (l1 & _ & H1 & _).
  destruct (run_log c Hwf (l :: l1) s x HI) as [new Hn]; [cbn; rewrite E1; exact H1|]. exists new. exact Hn.
Qed.
Lemma kinds_sum c H : List.length H = num c 0 H + num c 1 H + num c 2 H + num c 3 H + num c 4 H + num c 5 H.
Proof.
  unfold num. induction H as [|x H IH]; [reflexivity|]. cbn [filter List.length].
  assert (Hk : kind c x <= 5).
  { unfold kind. destruct (s_pc x); try lia. destruct (freshb x); [lia|]. destruct (s_coros x); [lia|]. destruct (s_todo x); [lia|].
    destruct (_ && _); lia. }
  destruct (kind c x) as [|[|[|[|[|[|k]]]]]]; cbn [Nat.eqb List.length] in *; lia.
Qed.

(** * What holds up a task *)
Lemma blocked c x t : wf_dag (c_dag c) -> Inv c x -> susp_inv c x -> kind c x = 4 -> In t (s_todo x) ->
  exists u, waitl u (live x) = true /\ held_up_by c t u.
Proof.
  intros Hwf HI HS Hk Ht. unfold kind in Hk. pose proof (i_pc _ _ HI) as P. unfold pc_inv in P.
  destruct (s_pc x) as [|ph| | | | | | |] eqn:Epc; try discriminate.
  destruct (freshb x) eqn:Ef; [discriminate|]. pose proof (proj1 (freshb_wait x) Ef) as Fw.
  destruct P as [A [_ [Pd _]]].
  assert (Hp : ph = PMain).
  { destruct ph; [reflexivity|]. destruct (Pd eq_refl) as [E _]. rewrite E in Ht. destruct Ht. }
  subst ph.
  assert (Hnr : forall n, In n (s_todo x) -> ~ ready (c_dag c) (s_ns x) (node_res c) (s_used x) n).
  { destruct (HS Epc) as [[T1 T2]|[[m Hm]|H]]; [exfalso|exfalso|exact H].
    - destruct (s_coros x); [discriminate|]. destruct (s_todo x); [destruct Ht|].
      apply Nat.leb_le in T2. rewrite T2 in Hk. replace (c_threads c =? 0) with false in Hk by (symmetry; apply Nat.eqb_neq; lia).
      discriminate.
    - destruct (Fw _ Hm) as [rec E]. discriminate. }
  assert (Hacc : Acc (succ_of (c_dag c)) t).
  { apply (a_acc _ _ _ _ _ _ _ _ A). apply (act_where c _ _ _ _ _ _ _ A). left. exact Ht. }
  revert Ht. induction Hacc as [t _ IH]. intros Ht.
  pose proof (Hnr t Ht) as Hn. destruct (a_idle _ _ _ _ _ _ _ _ A t (or_introl Ht)) as [Fl _].
  assert (Hfree : free (s_ns x) t) by (unfold free, flags in *; inversion Fl; auto).
  destruct (negb (all_done (s_ns x) (after_targets (c_dag c) t)) || any_resource_used (node_res c t) (s_used x)) eqn:Eb;
    [|exfalso; apply Hn; apply ready_self; assumption].
  apply orb_true_iff in Eb. destruct Eb as [Eb|Eb].
  - apply negb_true_iff in Eb. unfold all_done in Eb.
    assert (Hm : exists m, In m (after_targets (c_dag c) t) /\ ns_done (s_ns x m) = false).
    { revert Eb. clear. induction (after_targets (c_dag c) t) as [|m l IHl]; [discriminate|]. cbn.
      destruct (ns_done (s_ns x m)) eqn:E; [|intros _; exists m; auto]. intros H. destruct (IHl H) as (m' & ? & ?). exists m'. auto. }
    destruct Hm as (m & Hm & Hd). apply after_targets_In in Hm.
    assert (Hid : In m (node_ids (c_dag c))) by (apply (proj2 Hwf _ Hm)).
    apply (act_where c _ _ _ _ _ _ _ A) in Hid. destruct Hid as [Hid|[Hid|Hid]].
    + destruct (IH m Hm Hid) as (u & Hu & v & Hv & Hl). exists u. split; [exact Hu|]. exists v. split; [|exact Hl].
      eapply rt_trans; [apply rt_step; exact Hm|exact Hv].
    + exists m. split; [|exists t; split; [apply rt_refl|left; exact Hm]].
      apply act_lv_cases in Hid. destruct Hid as [Hid|[rec Hid]]; [destruct (Fw _ Hid) as [rec E]; discriminate|].
      apply waitl_In. eauto.
    + exfalso. apply in_map_iff in Hid. destruct Hid as (r & <- & Hr).
      destruct (a_rec _ _ _ _ _ _ _ _ A r Hr) as [G _]. congruence.
  - apply any_resource_used_spec in Eb. destruct Eb as (r & Hr & Hu). apply (a_used _ _ _ _ _ _ _ _ A) in Hu.
    destruct Hu as (u & rec & Hin & Hru). exists u. split; [apply waitl_In; eauto|].
    exists t. split; [apply rt_refl|]. right. split; [|eauto]. intros ->.
    pose proof (act_nodup c _ _ _ _ _ _ _ (proj1 Hwf) A) as Hnd. apply NoDup_app_iff in Hnd. destruct Hnd as [_ [_ Hnd]].
    apply (Hnd u Ht). apply in_app_iff. left. apply in_map_iff. eexists. split; [|exact Hin]. reflexivity.
Qed.

Lemma begun_trans tr a b d : begun_before tr a b -> begun_before tr b d -> begun_before tr a d.
Proof.
  intros (p & q & E & Ha & Hb) (p' & q' & E' & Hb' & Hd). exists p, q. split; [exact E|]. split; [exact Ha|].
  intros [er Hin]. subst tr.
  assert (Hpre : (exists k, p' = p ++ k) \/ (exists k, p = p' ++ k)).
  { clear -E'. revert p' E'. induction p as [|x p IH]; intros p' E'; [left; exists p'; reflexivity|].
    destruct p' as [|y p']; [right; eexists; reflexivity|]. cbn in E'. injection E' as -> E'.
    destruct (IH p' E') as [[k ->]|[k ->]]; [left|right]; exists k; reflexivity. }
  destruct Hpre as [[k ->]|[k ->]].
  - apply Hd. exists er. apply in_app_iff. left. exact Hin.
  - apply Hb. destruct Hb' as [er' H']. exists er'. apply in_app_iff. left. exact H'.
Qed.
Lemma chain_nodup c tr l : chain c tr l -> NoDup l.
Proof.
  assert (G : forall l t, chain c tr (t :: l) -> NoDup (t :: l) /\ Forall (fun u => begun_before tr u t) l).
  { clear l. induction l as [|u l IH]; intros t H; [split; [constructor; [intros []|constructor]|constructor]|].
    destruct H as (_ & Hb & Hc). destruct (IH u Hc) as [Hn Hf].
    assert (Hf' : Forall (fun v => begun_before tr v t) (u :: l)).
    { constructor; [exact Hb|]. rewrite Forall_forall in *. intros v Hv. eapply begun_trans; [apply Hf, Hv|exact Hb]. }
    split; [|exact Hf']. constructor; [|exact Hn]. intros Hin. rewrite Forall_forall in Hf'.
    destruct (Hf' t Hin) as (p & q & _ & H1 & H2). exact (H2 H1). }
  destruct l as [|t l]; [constructor|]. intros H. apply (G l t H).
Qed.

(** * Double counting *)
Lemma swap_count {X} (W : X -> nid -> bool) (ids : list nid) (p : list X) :
  list_sum (map (fun x => List.length (filter (W x) ids)) p) =
  list_sum (map (fun u => List.length (filter (fun x => W x u) p)) ids).
Proof.
  induction p as [|x p IH].
  - cbn. induction ids as [|u ids IHi]; [reflexivity|]. cbn. exact IHi.
  - unfold list_sum in *. cbn [map fold_right]. rewrite IH. clear IH. induction ids as [|u ids IHi]; [reflexivity|].
    cbn [filter map fold_right] in *. destruct (W x u); cbn [List.length]; lia.
Qed.
Lemma sum_ge {X} (f : X -> nat) k p : (forall x, In x p -> k <= f x) -> k * List.length p <= list_sum (map f p).
Proof.
  unfold list_sum. induction p as [|x p IH]; intros H; cbn [map fold_right List.length]; [lia|].
  pose proof (H x (or_introl eq_refl)). specialize (IH (fun y Hy => H y (or_intror Hy))). lia.
Qed.

Lemma tmu_polls u s : tmu u (s_log s) = polls (trace s) u.
Proof.
  unfold tmu, polls, trace. induction (s_log s) as [|e l IH]; [reflexivity|]. cbn [rev filter]. rewrite filter_app, app_length, <- IH.
  cbn [filter]. destruct (match e with ETimeout m => m =? u | _ => false end); cbn; lia.
Qed.

Lemma full_waits c x : wf_dag (c_dag c) -> Inv c x -> kind c x = 3 ->
  0 < c_threads c /\ c_threads c <= List.length (filter (fun u => waitl u (live x)) (node_ids (c_dag c))) /\ c_threads c < N_of c.
Proof.
  intros Hwf HI Hk. unfold kind in Hk. pose proof (i_pc _ _ HI) as P. unfold pc_inv in P.
  destruct (s_pc x) as [|ph| | | | | | |] eqn:Epc; try discriminate.
  destruct (freshb x) eqn:Ef; [discriminate|]. pose proof (proj1 (freshb_wait x) Ef) as Fw.
  destruct P as [A _].
  destruct (s_coros x) as [|sl0 cs] eqn:Ec; [discriminate|]. rewrite <- Ec in Hk. destruct (s_todo x) as [|t ts] eqn:Et; [discriminate|].
  destruct (_ && _) eqn:Eb; [|discriminate]. apply andb_true_iff in Eb. destruct Eb as [E1 E2]. apply Nat.leb_le in E1.
  apply negb_true_iff, Nat.eqb_neq in E2.
  assert (Hlive : List.length (live x) = List.length (s_coros x)) by (unfold live; rewrite Epc; apply map_length).
  assert (Hle : List.length (live x) <= List.length (filter (fun u => waitl u (live x)) (node_ids (c_dag c)))).
  { rewrite <- (map_length co_node). apply NoDup_incl_length.
    - pose proof (act_nodup c _ _ _ _ _ _ _ (proj1 Hwf) A) as Hnd. apply NoDup_app_iff in Hnd.
      destruct Hnd as [_ [Hnd _]]. apply NoDup_app_iff in Hnd. apply Hnd.
    - intros u Hu. apply filter_In. split; [eapply act_lv_ids; [exact A|exact Hu]|].
      apply act_lv_cases in Hu. destruct Hu as [Hu|[rec Hu]]; [destruct (Fw _ Hu) as [rec E]; discriminate|].
      apply waitl_In. eauto. }
  pose proof (Permutation_length (a_perm _ _ _ _ _ _ _ _ A)) as E. rewrite !app_length, !map_length, Et in E. cbn [List.length] in E.
  unfold N_of. unfold nid in *. lia.
Qed.

Section Bound.
Variables (c : config) (z : Z) (ls : list label) (s : state) (er : exec_record).
Hypothesis Hwf : wf_dag (c_dag c).
Hypothesis Hrun : run_labels c (init z) ls = Some s.
Hypothesis Hres : result s = RRecord er.
Let H := snaps c (init z) ls.
Let ids := node_ids (c_dag c).
Definition todob (x : state) (u : nid) : bool := mem u (s_todo x) && negb (waitl u (live x)).
Definition waitb (x : state) (u : nid) : bool := waitl u (live x).

Lemma snap_facts x : In x H -> reachable c z x /\ Inv c x /\ susp_inv c x /\ exists new, s_log s = new ++ s_log x.
Proof.
  intros Hx. destruct (snaps_run c ls (init z) s x Hrun Hx) as (l1 & l2 & H1 & H2).
  assert (HR : reachable c z x) by (exists l1; exact H1). assert (HI : Inv c x) by (apply (r_inv c z x Hwf HR)).
  split; [exact HR|]. split; [exact HI|]. split; [apply (susp_reachable c z x Hwf HR)|]. eapply run_log; eassumption.
Qed.

Lemma J_end : num c 0 H <= 1 /\ num c 2 H <= 1 /\ num c 5 H = 0 /\ num c 1 H <= N_of c /\ forall u, cw u H <= S (polls (trace s) u).
Proof.
  assert (HJ : J c ([] ++ H) s) by (apply (J_run c Hwf ls (init z) s []); [apply inv_init|reflexivity|exact Hrun]).
  cbn [app] in HJ. assert (Epc : s_pc s = Finished) by (unfold result in Hres; destruct (s_pc s); congruence).
  unfold J in HJ. rewrite Epc in HJ. destruct HJ as [(J0 & J2 & J5 & J1) Jc]. repeat split; auto.
  intros u. specialize (Jc u). rewrite tmu_polls in Jc. lia.
Qed.

Lemma full_bound : c_threads c * num c 3 H <= all_polls (trace s) ids /\ (c_threads c = 0 \/ N_of c <= c_threads c -> num c 3 H = 0).
Proof.
  assert (F : forall x, In x (filter (fun x => kind c x =? 3) H) ->
    0 < c_threads c /\ c_threads c <= List.length (filter (fun u => waitl u (live x)) ids) /\ c_threads c < N_of c).
  { intros x Hx. apply filter_In in Hx. destruct Hx as [Hx Hk]. apply Nat.eqb_eq in Hk. destruct (snap_facts x Hx) as (_ & HI & _).
    apply full_waits; assumption. }
  split.
  - unfold num. etransitivity; [apply (sum_ge (fun x => List.length (filter (fun u => waitl u (live x)) ids)))|].
    { intros x Hx. apply (F x Hx). }
    rewrite swap_count. unfold all_polls. apply sum_le. intros u _. etransitivity; [|apply (proj2 (proj2 (proj2 (proj2 J_end))))].
    apply (count_filter _ (fun x u => waitl u (live x))).
  - intros Hc. unfold num. destruct (filter (fun x => kind c x =? 3) H) as [|x p] eqn:E; [reflexivity|]. exfalso.
    destruct (F x (or_introl eq_refl)) as (F1 & _ & F2). lia.
Qed.

Lemma recs_split new log : recs (new ++ log) = recs log ++ recs new.
Proof. unfold recs. rewrite rev_app_distr, records_app. reflexivity. Qed.

Lemma earlier_snaps y x : Inv c y -> Inv c x -> (exists ph, s_pc x = Suspended ph) -> (exists ph, s_pc y = Suspended ph) ->
  freshb y = false -> (exists new, s_log x = new ++ s_log y) -> earlier state todob waitb y x.
Proof.
  intros HIy HIx [phx Ex] [phy Ey] Fy [new En] u Hu. unfold todob, waitb in *.
  destruct (waitl u (live y)) eqn:Ew; [auto|left]. rewrite andb_true_r.
  pose proof (i_pc _ _ HIx) as Px. unfold pc_inv in Px. rewrite Ex in Px. destruct Px as [Ax _].
  pose proof (i_pc _ _ HIy) as Py. unfold pc_inv in Py. rewrite Ey in Py. destruct Py as [Ay _].
  apply waitl_In in Hu. destruct Hu as [rec Hu].
  assert (Hu' : In u (map co_node (live x))) by (apply in_map_iff; eexists; split; [|exact Hu]; reflexivity).
  assert (Hid : In u (node_ids (c_dag c))) by (eapply act_lv_ids; [exact Ax|exact Hu']).
  apply (act_where c _ _ _ _ _ _ _ Ay) in Hid. destruct Hid as [Hid|[Hid|Hid]].
  - apply mem_In. exact Hid.
  - exfalso. apply act_lv_cases in Hid. destruct Hid as [Hid|[rec' Hid]].
    + destruct (proj1 (freshb_wait y) Fy _ Hid) as [r E]. discriminate.
    + assert (waitl u (live y) = true) by (apply waitl_In; eauto). congruence.
  - exfalso. apply (act_recorded c _ _ _ _ _ _ _ Ay) in Hid. eapply (act_lv_not_recorded c); [apply Hwf|exact Ax|exact Hu'|].
    destruct Hid as (r & H1 & H2). exists r. split; [|exact H2]. rewrite En, recs_split. apply in_app_iff. left. exact H1.
Qed.

Lemma kind4 x : kind c x = 4 -> (exists ph, s_pc x = Suspended ph) /\ freshb x = false /\ live x <> [].
Proof.
  unfold kind, live. destruct (s_pc x); try discriminate. destruct (freshb x); [discriminate|]. destruct (s_coros x); [discriminate|].
  intros _. split; [eauto|]. split; [reflexivity|discriminate].
Qed.

Lemma all_rec u : In u ids -> exists r, In r (recs (s_log s)) /\ r_node r = u.
Proof.
  intros Hu. assert (HR : reachable c z s) by (exists ls; exact Hrun).
  destruct (finished_log c z s Hwf HR er Hres) as (_ & _ & l & El & _ & [[_ Hall] _] & _).
  destruct (Hall u Hu) as (r & H1 & H2). exists r. split; [|exact H2]. rewrite El, recs_other by reflexivity. exact H1.
Qed.

Lemma still_open x r1 rr : In x H -> kind c x = 4 -> recs (s_log s) = rr ++ [r1] ->
  In (r_node r1) ids /\ (todob x (r_node r1) = true \/ waitb x (r_node r1) = true).
Proof.
  intros Hx Hk Er. assert (HR : reachable c z s) by (exists ls; exact Hrun).
  destruct (recs_nodup c _ (r_log c z s Hwf HR)) as [Hnd Hin].
  destruct (snap_facts x Hx) as (_ & HI & _ & new & En). destruct (kind4 x Hk) as ([ph Epc] & Ff & Hlv).
  pose proof (i_pc _ _ HI) as P. unfold pc_inv in P. rewrite Epc in P. destruct P as [A _].
  assert (H1 : In (r_node r1) ids) by (apply Hin, in_map; rewrite Er; apply in_app_iff; right; left; reflexivity).
  split; [exact H1|].
  rewrite En, recs_split in Er, Hnd.
  assert (Hnew : recs new <> []).
  { intros E0. destruct (live x) as [|k ks] eqn:El; [congruence|].
    assert (Hk' : In (co_node k) (map co_node (live x))) by (rewrite El; left; reflexivity).
    destruct (all_rec (co_node k)) as (r & R1 & R2); [eapply act_lv_ids; [exact A|exact Hk']|].
    rewrite En, recs_split, E0, app_nil_r in R1. eapply (act_lv_not_recorded c); [apply Hwf|exact A|exact Hk'|]. exists r. auto. }
  destruct (exists_last Hnew) as (nn & rn & Enn). rewrite Enn in Er. rewrite app_assoc in Er. apply app_inj_tail in Er. destruct Er as [_ ->].
  rewrite Enn, !map_app in Hnd. apply NoDup_app_iff in Hnd. destruct Hnd as (_ & _ & Hnd).
  unfold todob, waitb. destruct (waitl (r_node r1) (live x)) eqn:Ew; [auto|left]. rewrite andb_true_r.
  apply (act_where c _ _ _ _ _ _ _ A) in H1. destruct H1 as [Hid|[Hid|Hid]].
  - apply mem_In. exact Hid.
  - exfalso. apply act_lv_cases in Hid. destruct Hid as [Hid|[rec' Hid]].
    + destruct (proj1 (freshb_wait x) Ff _ Hid) as [r E]. discriminate.
    + assert (waitl (r_node r1) (live x) = true) by (apply waitl_In; eauto). congruence.
  - exfalso. apply (act_recorded c _ _ _ _ _ _ _ A) in Hid. destruct Hid as (r & R1 & R2).
    apply (Hnd (r_node r1)); [rewrite <- R2; apply in_map; exact R1|]. apply in_app_iff. right. left. reflexivity.
Qed.

Definition lnk (t u : nid) : Prop := held_up_by c t u /\ begun_before (trace s) u t /\ In u ids.

Lemma lnk_exists x t : In x H -> kind c x = 4 -> todob x t = true -> exists u, waitb x u = true /\ lnk t u.
Proof.
  intros Hx Hk Ht. destruct (snap_facts x Hx) as (_ & HI & HS & new & En). unfold todob in Ht. apply andb_true_iff in Ht. destruct Ht as [Ht _].
  apply mem_In in Ht. destruct (blocked c x t Hwf HI HS Hk Ht) as (u & Hu & Hh). exists u. split; [exact Hu|].
  destruct (kind4 x Hk) as ([ph Epc] & _ & _). pose proof (i_pc _ _ HI) as P. unfold pc_inv in P. rewrite Epc in P. destruct P as [A _].
  apply waitl_In in Hu. destruct Hu as [rec Hu]. split; [exact Hh|]. split.
  - exists (trace x), (rev new). split; [unfold trace; rewrite En, rev_app_distr; reflexivity|]. split.
    + destruct (w_before _ _ _ _ _ _ (a_wait _ _ _ _ _ _ _ _ A _ _ Hu)) as [er' Hb]. exists er'. apply trace_in. exact Hb.
    + intros [er' Hb]. apply trace_in in Hb. destruct (a_idle _ _ _ _ _ _ _ _ A t (or_introl Ht)) as (_ & _ & Hn). apply Hn. exists er'. exact Hb.
  - eapply act_lv_ids; [exact A|]. apply in_map_iff. eexists. split; [|exact Hu]. reflexivity.
Qed.

Lemma linked_chain : forall l t, linked lnk t l -> chain c (trace s) (t :: l) /\ incl l ids.
Proof.
  induction l as [|u l IH]; intros t Hl; [split; [exact I|intros x []]|]. destruct Hl as [(L1 & L2 & L3) Hl].
  destruct (IH u Hl) as [H1 H2]. split; [split; [exact L1|split; [exact L2|exact H1]]|].
  intros x [<-|Hx]; [exact L3|apply H2, Hx].
Qed.

Lemma wait_bound : exists l, chain c (trace s) l /\ incl l ids /\ num c 4 H <= all_polls (trace s) l.
Proof.
  set (p := filter (fun x => kind c x =? 4) H).
  assert (Pin : forall x, In x p -> In x H /\ kind c x = 4).
  { intros x Hx. apply filter_In in Hx. destruct Hx as [H1 H2]. apply Nat.eqb_eq in H2. auto. }
  assert (Hp : p = [] \/ exists r1 rr, recs (s_log s) = rr ++ [r1] /\ In (r_node r1) ids).
  { destruct p as [|x0 p0]; [auto|right]. destruct (Pin x0 (or_introl eq_refl)) as [Hx Hk].
    destruct (kind4 x0 Hk) as ([ph Epc] & _ & Hlv). destruct (snap_facts x0 Hx) as (_ & HI & _).
    pose proof (i_pc _ _ HI) as P. unfold pc_inv in P. rewrite Epc in P. destruct P as [A _].
    destruct (live x0) as [|k ks] eqn:El; [congruence|].
    assert (Hk' : In (co_node k) (map co_node (live x0))) by (rewrite El; left; reflexivity).
    destruct (all_rec (co_node k)) as (r & R1 & _); [eapply act_lv_ids; [exact A|exact Hk']|].
    destruct (@exists_last _ (recs (s_log s))) as (rr & r1 & E); [intros E; rewrite E in R1; destruct R1|].
    exists r1, rr. split; [exact E|]. apply (still_open x0 r1 rr Hx Hk E). }
  destruct Hp as [Hp|(r1 & rr & Er & H1)].
  { exists []. split; [exact I|]. split; [intros u []|]. unfold num. fold p. rewrite Hp. cbn. lia. }
  set (t1 := r_node r1).
  assert (Ho : ForallOrdPairs (earlier state todob waitb) p).
  { assert (G : forall q, (forall x, In x q -> In x H /\ kind c x = 4) ->
      ForallOrdPairs (fun y x => exists new, s_log x = new ++ s_log y) q -> ForallOrdPairs (earlier state todob waitb) q).
    { induction q as [|y q IH]; intros Hq Hf; [constructor|]. inversion Hf as [|? ? F1 F2]; subst. constructor.
      - rewrite Forall_forall in *. intros x Hx. destruct (Hq y (or_introl eq_refl)) as [Hy Ky]. destruct (Hq x (or_intror Hx)) as [Hx' Kx].
        destruct (kind4 y Ky) as (Ey & Fy & _). destruct (kind4 x Kx) as (Ex & _ & _).
        apply earlier_snaps; [apply (snap_facts y Hy)|apply (snap_facts x Hx')|exact Ex|exact Ey|exact Fy|apply F1, Hx].
      - apply IH; [intros x Hx; apply Hq; right; exact Hx|exact F2]. }
    apply G; [exact Pin|]. apply fop_filter. apply (snaps_order c Hwf ls (init z) s (inv_init c z) Hrun). }
  set (q := filter (fun x => todob x t1) p).
  assert (Hq : forall x, In x q -> In x p /\ todob x t1 = true) by (intros x Hx; apply filter_In in Hx; exact Hx).
  destruct (cover state todob waitb lnk) with (k := List.length q) (t := t1) (p := q) as (l & Hl & Hs).
  - intros x u Hu. unfold todob, waitb in *. rewrite Hu. apply andb_false_r.
  - apply le_n.
  - apply fop_filter, Ho.
  - intros x t Hx Ht. destruct (Hq x Hx) as [Hx' _]. destruct (Pin x Hx') as [Hx'' Hk]. apply (lnk_exists x t Hx'' Hk Ht).
  - intros x Hx. apply (Hq x Hx).
  - destruct (linked_chain l t1 Hl) as [Hc Hi]. 
    exists (t1 :: l). split; [exact Hc|]. split; [intros u [<-|Hu]; [exact H1|apply Hi, Hu]|].
    change (num c 4 H) with (List.length p).
    pose proof (split_count state todob waitb t1 p) as Hsp. fold q in Hsp.
    assert (Hsp' : List.length p <= List.length q + count state waitb t1 p).
    { apply Hsp. intros x Hx. destruct (Pin x Hx) as [Hx' Hk]. apply (still_open x r1 rr Hx' Hk Er). }
    assert (Hcnt : forall u f, count state waitb u (filter f H) <= S (polls (trace s) u)).
    { intros u f. etransitivity; [apply count_filter|]. apply J_end. }
    assert (Hcq : forall u, count state waitb u q <= S (polls (trace s) u)).
    { intros u. etransitivity; [apply count_filter|]. apply Hcnt. }
    unfold all_polls. pose proof (sum_le (fun u => count state waitb u q) (fun u => S (polls (trace s) u)) l (fun u _ => Hcq u)) as Hsl.
    pose proof (Hcnt t1 (fun x => kind c x =? 4)) as Hc1. fold p in Hc1.
    unfold list_sum in *. cbn [map fold_right]. lia.
Qed.

Lemma parallel_ticks : exists l busy, chain c (trace s) l /\ NoDup l /\ incl l ids /\
  ticks ls <= List.length ids + 2 + busy + all_polls (trace s) l /\
  c_threads c * busy <= all_polls (trace s) ids /\
  (c_threads c = 0 \/ List.length ids <= c_threads c -> busy = 0).
Proof.
  destruct wait_bound as (l & Hc & Hi & Hn). destruct full_bound as [B1 B2]. destruct J_end as (J0 & J2 & J5 & J1 & _).
  exists l, (num c 3 H). split; [exact Hc|]. split; [eapply chain_nodup; exact Hc|]. split; [exact Hi|]. split; [|split; [exact B1|exact B2]].
  rewrite <- (snaps_length c ls (init z) s Hrun). fold H. rewrite (kinds_sum c H). unfold N_of in J1. unfold ids, nid in *. lia.
Qed.
End Bound.

(** * Bounds in terms of the dag *)
Lemma chain_seq c tr l : (forall v u r, In v (node_ids (c_dag c)) -> In u (node_ids (c_dag c)) -> v <> u -> In r (node_res c v) -> ~ In r (node_res c u)) ->
  wf_dag (c_dag c) -> incl l (node_ids (c_dag c)) -> chain c tr l -> in_sequence (c_dag c) l.
Proof.
  intros Hr Hwf. induction l as [|t l IH]; intros Hi Hc; [exact I|]. destruct l as [|u l]; [exact I|].
  destruct Hc as ((v & Hv & Hl) & _ & Hc). split; [|apply IH; [intros x Hx; apply Hi; right; exact Hx|exact Hc]].
  assert (Hvid : In v (node_ids (c_dag c))).
  { assert (Ht : In t (node_ids (c_dag c))) by (apply Hi; left; reflexivity). revert Ht. clear -Hv Hwf.
    induction Hv as [a b Hab| |a b d _ IH1 _ IH2]; intros Ht; auto. apply (proj2 Hwf _ Hab). }
  assert (Huid : In u (node_ids (c_dag c))) by (apply Hi; right; left; reflexivity).
  destruct Hl as [Hl|(Hne & r & R1 & R2)]; [|destruct (Hr v u r Hvid Huid Hne R1 R2)].
  clear -Hv Hl. assert (G : forall a b, clos_refl_trans nid (runs_after (c_dag c)) a b -> forall d, clos_trans nid (runs_after (c_dag c)) b d -> clos_trans nid (runs_after (c_dag c)) a d).
  { clear. induction 1 as [a b Hab| |a b d _ IH1 _ IH2]; intros e He; auto. eapply t_trans; [apply t_step; exact Hab|exact He]. }
  eapply G; [exact Hv|apply t_step; exact Hl].
Qed.

Lemma all_polls_le tr d l : (forall n, In n l -> polls tr n <= d) -> all_polls tr l <= List.length l * S d.
Proof.
  unfold all_polls, list_sum. induction l as [|n l IH]; intros Hd; cbn [map fold_right List.length]; [lia|].
  pose proof (Hd n (or_introl eq_refl)). specialize (IH (fun m Hm => Hd m (or_intror Hm))). lia.
Qed.

Lemma parallel_bound : forall c z ls s er depth d,
  wf_dag (c_dag c) -> run_labels c (init z) ls = Some s -> result s = RRecord er ->
  (forall v u r, In v (node_ids (c_dag c)) -> In u (node_ids (c_dag c)) -> v <> u -> In r (node_res c v) -> ~ In r (node_res c u)) ->
  (forall l, incl l (node_ids (c_dag c)) -> in_sequence (c_dag c) l -> List.length l <= depth) ->
  (forall n, In n (node_ids (c_dag c)) -> polls (trace s) n <= d) ->
  let N := List.length (node_ids (c_dag c)) in
  c_threads c * ticks ls <= c_threads c * (N + 2 + depth * S d) + N * S d /\
  (c_threads c = 0 \/ N <= c_threads c -> ticks ls <= N + 2 + depth * S d).
Proof.
  intros c z ls s er depth d Hwf Hrun Hres Hr Hd Hp N.
  destruct (parallel_ticks c z ls s er Hwf Hrun Hres) as (l & busy & Hc & _ & Hi & H1 & H2 & H3).
  assert (Hl : List.length l <= depth) by (apply Hd; [exact Hi|eapply chain_seq; eassumption]).
  assert (A1 : all_polls (trace s) l <= depth * S d).
  { etransitivity; [apply all_polls_le; intros n Hn; apply Hp, Hi, Hn|]. apply Nat.mul_le_mono_r, Hl. }
  assert (A2 : all_polls (trace s) (node_ids (c_dag c)) <= N * S d) by (apply all_polls_le; intros n Hn; apply Hp, Hn).
  fold N in H1, H3. split.
  - nia.
  - intros Hc0. specialize (H3 Hc0). lia.
Qed.
