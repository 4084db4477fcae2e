(** The outcome does not depend on the schedule (C16); executions with at most one job at
    a time have a fixed order (C58). *)
From Coq Require Import Lia String Permutation.
From Verif Require Import Model.Common Model.Records Model.Jobs Model.TaskSet Model.Dag
     Model.Sched Model.Exec Spec.Graph Spec.Trace
     Proofs.Sets Proofs.SchedFacts Proofs.InvalFacts Proofs.TraceFacts Proofs.ExecInv
     Proofs.ExecStep Proofs.ExecCtl Proofs.LogFacts Proofs.ExecProps Proofs.ExecProps2
     Proofs.StepCases Proofs.ExecProps3 Proofs.Ticks.
Open Scope nat_scope.
Open Scope list_scope.

(** * C16 *)

Lemma same_outcome : forall c1 z1 s1 c2 z2 s2,
  wf_dag (c_dag c1) -> requires_after (c_dag c1) -> c_dag c2 = c_dag c1 ->
  (forall n, job_invalidated c1 n <-> job_invalidated c2 n) ->
  reachable c1 z1 s1 -> reachable c2 z2 s2 ->
  (forall n o1 o2, In (EEnd n o1) (trace s1) -> In (EEnd n o2) (trace s2) -> o1 = o2) ->
  forall r1 r2, In r1 (records (trace s1)) -> In r2 (records (trace s2)) -> r_node r1 = r_node r2 ->
  r_task r1 = r_task r2 /\ r_name r1 = r_name r2 /\ r_status r1 = r_status r2 /\
  r_retcode r1 = r_retcode r2 /\ r_output r1 = r_output r2.
Proof.
  intros c1 z1 s1 c2 z2 s2 Hwf Hra Ed Hj HR1 HR2 Ho.
  assert (Hwf2 : wf_dag (c_dag c2)) by (rewrite Ed; exact Hwf).
  assert (Hra2 : requires_after (c_dag c2)) by (rewrite Ed; exact Hra).
  assert (HI : forall n, Invalidated c1 n <-> Invalidated c2 n).
  { intros n. unfold Invalidated. rewrite Ed. split; intros [m [H1 H2]]; exists m; (split; [exact H1|]); apply Hj, H2. }
  pose proof (r_log c1 z1 s1 Hwf HR1) as L1. pose proof (r_log c2 z2 s2 Hwf2 HR2) as L2.
  assert (G : forall k r1, (exists a er x l, s_log s1 = a ++ EAfterRun er r1 x :: l /\ List.length l < k) ->
     forall r2, In r2 (records (trace s2)) -> r_node r1 = r_node r2 ->
     r_status r1 = r_status r2 /\ r_retcode r1 = r_retcode r2 /\ r_output r1 = r_output r2).
  { induction k as [|k IH]; intros r1 [a [er [x [l [El Hl]]]]] r2 Hr2 En; [lia|].
    assert (Hr1 : In r1 (records (trace s1))).
    { rewrite <- recs_trace. apply recs_In. exists er, x. rewrite El. apply in_app_iff. right; left; reflexivity. }
    pose proof L1 as L1'. rewrite El in L1'. apply log_ok_app in L1'. destruct L1' as [[He _] Ll].
    cbn [ev_cond] in He. destruct He as [_ [_ [_ [_ [Har _]]]]].
    assert (Hpos : forall b rb, requires (c_dag c1) (r_node r1) b -> In rb (records (trace s1)) -> r_node rb = b ->
              exists a er x l, s_log s1 = a ++ EAfterRun er rb x :: l /\ List.length l < k).
    { intros b rb Hb Hrb Eb. destruct (Har b (Hra _ _ Hb)) as [rb' [H1 H2]].
      assert (rb' = rb).
      { eapply (rec_unique c1); [exact L1| |rewrite recs_trace; exact Hrb|congruence].
        rewrite El. apply recs_In in H1. destruct H1 as [er' [x' H1]]. apply recs_In. exists er', x'.
        apply in_app_iff. right; right; exact H1. }
      subst rb'. destruct (rec_at c1 _ _ Ll H1) as [p1 [er' [x' [p2 [E' _]]]]].
      exists (a ++ EAfterRun er r1 x :: p1), er', x', p2. rewrite El, E', <- app_assoc. split; [reflexivity|].
      rewrite E', app_length in Hl. cbn [List.length] in Hl. lia. }
    assert (HB : bad_requirement c1 (trace s1) (r_node r1) <-> bad_requirement c2 (trace s2) (r_node r2)).
    { split.
      - intros [b [rb [H1 [H2 [H3 H4]]]]].
        pose proof (record_facts c2 z2 s2 Hwf2 HR2 r2 Hr2) as [_ [F _]]. cbn zeta in F.
        rewrite Ed, <- En in F. destruct (F b (Hra _ _ H1)) as [rb2 [G1 G2]].
        exists b, rb2. rewrite Ed, <- En. split; [exact H1|]. split; [exact G1|]. split; [exact G2|].
        destruct (IH rb (Hpos b rb H1 H2 H3) rb2 G1) as [Es _]; [congruence|]. rewrite <- Es. exact H4.
      - intros [b [rb [H1 [H2 [H3 H4]]]]]. rewrite Ed, <- En in H1.
        pose proof (record_facts c1 z1 s1 Hwf HR1 r1 Hr1) as [_ [F _]]. cbn zeta in F.
        destruct (F b (Hra _ _ H1)) as [rb1 [G1 G2]].
        exists b, rb1. split; [exact H1|]. split; [exact G1|]. split; [exact G2|].
        destruct (IH rb1 (Hpos b rb1 H1 G1 G2) rb H2) as [Es _]; [congruence|]. rewrite Es. exact H4. }
    destruct (status_rule c1 z1 s1 r1 Hwf Hra HR1 Hr1) as [A1 [A2 [A3 A4]]].
    destruct (status_rule c2 z2 s2 r2 Hwf2 Hra2 HR2 Hr2) as [B1 [B2 [B3 B4]]].
    cbn zeta in *. rewrite <- En in B1, B2, B3. rewrite <- En in HB. rewrite <- HB in B1, B2. rewrite <- HI in B2.
    assert (Hran : forall (P : Prop), (r_status r1 = OK \/ r_status r1 = FAIL) -> (r_status r2 = OK \/ r_status r2 = FAIL) ->
       r_status r1 = r_status r2 /\ r_retcode r1 = r_retcode r2 /\ r_output r1 = r_output r2).
    { intros _ H1 H2. destruct (A3 H1) as [o1 [X1 [X2 [X3 X4]]]]. destruct (B3 H2) as [o2 [Y1 [Y2 [Y3 Y4]]]].
      rewrite (Ho _ _ _ X1 Y1) in X2, X3.
      assert (Er : r_retcode r1 = r_retcode r2) by congruence. split; [|split; [exact Er|congruence]].
      rewrite Er in X4. destruct H1 as [H1|H1], H2 as [H2|H2]; rewrite H1, H2 in *; try reflexivity.
      - assert (C : OK = FAIL) by (apply X4, Y4; reflexivity). discriminate.
      - assert (C : OK = FAIL) by (apply Y4, X4; reflexivity). discriminate. }
    assert (Hzero : r_status r1 = r_status r2 -> (r_status r1 = DEPF \/ r_status r1 = SKIP) ->
       r_status r1 = r_status r2 /\ r_retcode r1 = r_retcode r2 /\ r_output r1 = r_output r2).
    { intros Es H. destruct (A4 H) as [X1 X2]. rewrite Es in H. destruct (B4 H) as [Y1 Y2]. rewrite X1, X2, Y1, Y2. auto. }
    destruct (r_status r1) eqn:S1, (r_status r2) eqn:S2; try (apply Hzero; [reflexivity|auto]; fail);
      try (apply (Hran True); auto; fail); exfalso.
    all: try (assert (OK = DEPF) by tauto; discriminate).
    all: try (assert (FAIL = DEPF) by tauto; discriminate).
    all: try (assert (SKIP = DEPF) by tauto; discriminate).
    all: try (assert (OK = SKIP) by tauto; discriminate).
    all: try (assert (FAIL = SKIP) by tauto; discriminate).
    all: tauto. }
  intros r1 r2 Hr1 Hr2 En. pose proof Hr1 as Hr1'. rewrite <- recs_trace in Hr1'.
  destruct (rec_at c1 _ _ L1 Hr1') as [a [er [x [l [El [He _]]]]]].
  pose proof Hr2 as Hr2'. rewrite <- recs_trace in Hr2'.
  destruct (rec_at c2 _ _ L2 Hr2') as [a2 [er2 [x2 [l2 [El2 [He2 _]]]]]].
  cbn [ev_cond] in He, He2. destruct He as [_ [_ [_ [_ [_ [[T1 [N1 _]] _]]]]]].
  destruct He2 as [_ [_ [_ [_ [_ [[T2 [N2 _]] _]]]]]].
  rewrite T1, T2, N1, N2, Ed, En. split; [reflexivity|]. split; [reflexivity|].
  apply (G (S (List.length l)) r1); [|exact Hr2|exact En]. exists a, er, x, l. auto.
Qed.

(** * C58 *)

(** ** The candidate search reads only these flags *)
Section Congr.
Variables (d : dag) (st st' : nid -> nstate) (res res' : nid -> list rid).
Hypothesis Hcl : forall a b, runs_after d a b -> In a (node_ids d) /\ In b (node_ids d).
Hypothesis Hst : forall n, In n (node_ids d) ->
  (ns_started (st n) || ns_done (st n)) = (ns_started (st' n) || ns_done (st' n)) /\
  ns_done (st n) = ns_done (st' n).

Lemma no_res_used r : any_resource_used r [] = false.
Proof.
  destruct (any_resource_used r []) eqn:E; [|reflexivity]. apply any_resource_used_spec in E.
  destruct E as [x [_ []]].
Qed.

Lemma find_node_congr fuel : forall n seen, In n (node_ids d) ->
  find_node fuel d st res [] n seen = find_node fuel d st' res' [] n seen.
Proof.
  induction fuel as [|f IH]; intros n seen Hn; [reflexivity|]. cbn [find_node].
  destruct (Hst n Hn) as [E1 E2]. rewrite E1. destruct (_ || mem n seen); [reflexivity|].
  assert (Hd : all_done st (after_targets d n) = all_done st' (after_targets d n)).
  { assert (Ht : forall m, In m (after_targets d n) -> In m (node_ids d)).
    { intros m Hm. apply after_targets_In in Hm. apply Hcl in Hm. apply Hm. }
    revert Ht. unfold all_done. induction (after_targets d n) as [|m l IHl]; intros Ht; [reflexivity|].
    cbn. rewrite (proj2 (Hst m (Ht m (or_introl eq_refl)))), IHl; [reflexivity|].
    intros m' H'. apply Ht. right; exact H'. }
  cbn zeta. rewrite Hd, !no_res_used. clear Hd.
  assert (Ht : forall m, In m (after_targets d n) -> In m (node_ids d)).
  { intros m Hm. apply after_targets_In in Hm. apply Hcl in Hm. apply Hm. }
  generalize (if negb (all_done st' (after_targets d n)) || false then None else Some n). intros self.
  generalize (set_insert n seen). revert Ht. generalize (after_targets d n). intros l.
  induction l as [|m l IHl]; intros Ht sn; [reflexivity|]. cbn [find_loop].
  rewrite IH by (apply Ht; left; reflexivity).
  destruct (find_node f d st' res' [] m sn) as [[[r|] sn']|]; [reflexivity| |reflexivity].
  apply IHl. intros m' H'. apply Ht. right; exact H'.
Qed.

Lemma find_candidate_congr fuel : forall l seen, incl l (node_ids d) ->
  find_candidate fuel d st res [] l seen = find_candidate fuel d st' res' [] l seen.
Proof.
  induction l as [|n l IH]; intros seen Hl; [reflexivity|]. cbn [find_candidate].
  rewrite find_node_congr by (apply Hl; left; reflexivity).
  destruct (find_node fuel d st' res' [] n seen) as [[[r|] sn']|]; [reflexivity| |reflexivity].
  apply IH. intros x Hx. apply Hl. right; exact Hx.
Qed.
End Congr.

(** ** The order of one-at-a-time executions *)
Definition done_state (l : list nid) (n : nid) : nstate := NState UNKNOWN (mem n l) (mem n l) false.
Definition rest_of (d : dag) (l : list nid) : list nid :=
  filter (fun n => negb (mem n l)) (fold_left (fun l n => set_insert n l) (node_ids d) []).
Definition next_node (d : dag) (l : list nid) : option nid :=
  match find_candidate (S (S (List.length (d_nodes d)))) d (done_state l) (fun _ => []) [] (rest_of d l) [] with
  | Some (Some m) => Some m
  | _ => None
  end.
Inductive gen (d : dag) : list nid -> Prop :=
| gen_nil : gen d []
| gen_next l m : gen d l -> next_node d l = Some m -> gen d (l ++ [m]).

Lemma gen_unique d : forall l1, gen d l1 -> forall l2, gen d l2 -> List.length l1 = List.length l2 -> l1 = l2.
Proof.
  induction 1 as [|l m Hl IH Hn]; intros l2 H2 E.
  - destruct l2; [reflexivity|discriminate].
  - destruct H2 as [|l' m' Hl' Hn'].
    + rewrite app_length in E. cbn in E. lia.
    + rewrite !app_length in E. cbn in E. assert (l = l') by (apply IH; [exact Hl'|lia]). subst l'.
      rewrite Hn in Hn'. inversion Hn'. reflexivity.
Qed.

Definition order_of (s : state) : list nid := map r_node (recs (s_log s)) ++ map co_node (live s).


Lemma rest_of_todo d todo l : sorted todo -> (forall n, In n (node_ids d) <-> In n todo \/ In n l) ->
  (forall n, In n todo -> ~ In n l) -> rest_of d l = todo.
Proof.
  intros Hs Hw Hd. apply sorted_ext; [|exact Hs|].
  - unfold rest_of. assert (H := fold_insert_sorted (node_ids d) [] sorted_nil).
    induction H as [|x l' Hx Hl IH]; cbn; [constructor|]. destruct (negb (mem x l)); [|exact IH].
    constructor; [|exact IH]. intros y Hy. apply filter_In in Hy. apply Hx, Hy.
  - intros x. unfold rest_of. rewrite filter_In, fold_insert_In, negb_true_iff. split.
    + intros [[H|[]] H2]. apply Hw in H. destruct H as [H|H]; [exact H|]. exfalso.
      apply mem_In in H. congruence.
    + intros H. split; [left; apply Hw; left; exact H|]. destruct (mem x l) eqn:E; [|reflexivity].
      apply mem_In in E. destruct (Hd x H E).
Qed.

Lemma dispatch_next c s kept m : wf_dag (c_dag c) -> Inv c s -> s_pc s = Clean PMain kept [] -> kept = [] ->
  find_candidate (fuel_of c) (c_dag c) (s_ns s) (node_res c) (s_used s) (s_todo s) [] = Some (Some m) ->
  next_node (c_dag c) (map r_node (recs (s_log s))) = Some m.
Proof.
  intros Hwf HI Epc -> E. pose proof (i_pc _ _ HI) as P. unfold pc_inv in P. rewrite Epc in P. destruct P as [A _].
  unfold act, live in A. rewrite Epc in A. cbn in A.
  assert (Hu : s_used s = []).
  { destruct (s_used s) as [|r u] eqn:Eu; [reflexivity|].
    destruct (proj1 (a_used _ _ _ _ _ _ _ _ A r)) as [n [rec [[] _]]]. left; reflexivity. }
  rewrite Hu in E. pose proof (act_nodup c _ _ _ _ _ _ _ (proj1 Hwf) A) as Hnd. cbn in Hnd.
  apply NoDup_app_iff in Hnd. destruct Hnd as [_ [_ Hnd]].
  destruct (a_snap _ _ _ _ _ _ _ _ A) as [Er _].
  assert (Hw : forall n, In n (node_ids (c_dag c)) <-> In n (s_todo s) \/ In n (map r_node (recs (s_log s)))).
  { intros n. rewrite (act_where c _ _ _ _ _ _ _ A n), Er. cbn. tauto. }
  unfold next_node. rewrite (rest_of_todo (c_dag c) (s_todo s)).
  - rewrite <- (find_candidate_congr (c_dag c) (s_ns s) (done_state (map r_node (recs (s_log s)))) (node_res c) (fun _ => [])).
    + change (S (S (List.length (d_nodes (c_dag c))))) with (fuel_of c). rewrite E. reflexivity.
    + intros a b H. apply Hwf in H. exact H.
    + intros n Hn. unfold done_state. cbn. rewrite (orb_diag (mem n _)). apply Hw in Hn. destruct Hn as [Hn|Hn].
      * destruct (a_idle _ _ _ _ _ _ _ _ A n (or_introl Hn)) as [F _]. unfold flags in F.
        assert (Fs : ns_started (s_ns s n) = false) by congruence. assert (Fd : ns_done (s_ns s n) = false) by congruence.
        rewrite Fs, Fd. clear F Fs Fd. cbn.
        rewrite Er in Hnd. destruct (mem n (map r_node (recs (s_log s)))) eqn:Em; [|auto].
        apply mem_In in Em. destruct (Hnd n Hn Em).
      * pose proof Hn as Hm. apply mem_In in Hm. rewrite Hm. rewrite <- Er in Hn. apply in_map_iff in Hn. destruct Hn as [r [<- Hr]].
        destruct (a_rec _ _ _ _ _ _ _ _ A r Hr) as [-> _]. rewrite orb_true_r. auto.
    + intros n Hn. apply Hw. left; exact Hn.
  - exact (a_sorted _ _ _ _ _ _ _ _ A).
  - exact Hw.
  - rewrite Er in Hnd. exact Hnd.
Qed.

Definition active (p : pc) : Prop := match p with Suspended _ | Clean _ _ _ => True | _ => False end.

Definition order_inv' (c : config) (s : state) : Prop :=
  (active (s_pc s) -> gen (c_dag c) (order_of s)) /\
  (s_pc s = Finished -> gen (c_dag c) (map r_node (recs (s_log s))) /\
     List.length (recs (s_log s)) = List.length (node_ids (c_dag c))).

Lemma order_step c s l s' : wf_dag (c_dag c) -> c_threads c <= 1 -> Inv c s -> order_inv' c s ->
  step c s l = Some s' -> order_inv' c s'.
Proof.
  intros Hwf Hthr HI [O1 O2] E. assert (HI' : Inv c s') by (eapply step_inv; eassumption).
  assert (Hlen : List.length (live s) <= 1) by (pose proof (k_bound _ _ _ _ (i_core _ _ HI)); lia).
  assert (Hlen' : List.length (live s') <= 1) by (pose proof (k_bound _ _ _ _ (i_core _ _ HI')); lia).
  (* steps that keep the order *)
  assert (HK : order_of s' = order_of s -> active (s_pc s) -> s_pc s' <> Finished -> order_inv' c s').
  { intros E1 A1 A2. split; [intros _; rewrite E1; auto|intros H; destruct (A2 H)]. }
  assert (HN : ~ active (s_pc s') -> s_pc s' <> Finished -> order_inv' c s').
  { intros A1 A2. split; intros H; [destruct (A1 H)|destruct (A2 H)]. }
  assert (HM : forall s0, Top c s0 -> gen (c_dag c) (map r_node (recs (s_log s0)) ++ map co_node (map sl_coro (s_coros s0))) ->
    s' = drain_top s0 /\ s_todo s0 = [] \/ s' = main_top s0 -> order_inv' c s').
  { intros s0 T G D.
    assert (D' : s' = drain_top s0 /\ s_todo s0 = [] \/ s' = set_pc (emit s0 (EOnTick (s_erec s0))) (Clean PMain [] (s_coros s0))).
    { destruct D as [D|D]; [left; exact D|]. unfold main_top in D. destruct (s_todo s0); auto. }
    destruct D' as [[D' Ht]|D'].
    - unfold drain_top in D'. destruct (s_coros s0) eqn:Ec; rewrite D'.
      + split; [intros []|intros _]. pose proof (t_act _ _ T) as A.
        cbn -[recs]. rewrite recs_other by reflexivity. cbn in G. rewrite app_nil_r in G. split; [exact G|].
        pose proof (Permutation_length (a_perm _ _ _ _ _ _ _ _ A)) as Hl. destruct (a_snap _ _ _ _ _ _ _ _ A) as [Er _].
        rewrite Ec, Er, Ht in Hl. cbn in Hl. rewrite map_length in Hl. symmetry. exact Hl.
      + split; [intros _|discriminate]. unfold order_of, live. cbn -[recs map]. exact G.
    - rewrite D'. split; [intros _|discriminate]. unfold order_of, live. cbn -[recs]. rewrite recs_other by reflexivity. exact G. }
  (* completion of the only coroutine *)
  assert (HC : forall ph kept sl rest n rec s0 er x, s_pc s = Clean ph kept (sl :: rest) ->
     co_node (sl_coro sl) = n -> r_node rec = n -> recs (s_log s0) = recs (s_log s) ->
     s_log s' = EAfterRun er rec x :: s_log s0 -> s_pc s' = Clean ph kept rest -> order_inv' c s').
  { intros ph kept sl rest n rec s0 er x Epc En Er Es0 El Ep. apply HK; [|rewrite Epc; exact I|rewrite Ep; discriminate].
    unfold order_of, live in *. rewrite Epc in *. rewrite Ep. rewrite El, recs_after, Es0, map_app.
    rewrite app_length in Hlen. cbn [map List.length] in Hlen. rewrite map_length in Hlen.
    destruct kept; [|cbn in Hlen; lia]. destruct rest; [|cbn in Hlen; lia]. cbn. rewrite app_nil_r, Er, En. reflexivity. }
  destruct l; cbn [step] in E.
  - unfold tick in E. destruct (s_pc s) as [|ph| | | | | | |] eqn:Epc; try discriminate.
    + inversion E; subst s'. destruct (start_spec c Hwf s HI Epc) as [R _].
      inversion R as [? ? cyc L1 L2 L3|? ? m pre post L2 L1 L3 L4 L5 L6 L7|? ? m pre post L2 L1 L3 L4 L5 L6 L7
                 |? ? s1 evd todo Es T1 El Ep Et Hso Ec]; subst.
      * apply HN; rewrite L2; [intros []|discriminate].
      * apply HN; rewrite L2; [intros []|discriminate].
      * apply HN; rewrite L2; [intros []|discriminate].
      * apply (HM s1); [exact T1| |right; exact Es]. rewrite Ec. cbn [map].
        pose proof (t_act _ _ T1) as A. destruct (a_snap _ _ _ _ _ _ _ _ A) as [Er _].
        assert (Hn : recs (s_log s1) = []); [|rewrite Hn; constructor].
        destruct (recs (s_log s1)) as [|r0 rs0] eqn:Erc; [reflexivity|exfalso].
        assert (Hb : In r0 (recs (s_log s1))) by (rewrite Erc; left; reflexivity).
        assert (Hrec0 : recorded_l (s_log s1) (r_node r0)) by (exists r0; auto).
        apply (act_recorded c _ _ _ _ _ _ _ A) in Hrec0. pose proof (act_nodup c _ _ _ _ _ _ _ (proj1 Hwf) A) as Hnd.
        rewrite Ec in Hnd. cbn in Hnd. apply NoDup_app_iff in Hnd. destruct Hnd as [_ [_ Hnd]].
        apply (Hnd (r_node r0)); [|exact Hrec0].
        match goal with H : forall n, In n (s_todo s1) <-> _ |- _ => apply H end.
        apply (act_where c _ _ _ _ _ _ _ A). right; right; exact Hrec0.
    + specialize (O1 I). unfold order_of, live in O1. rewrite Epc in O1.
      pose proof (suspended_top c s ph HI Epc) as T.
      apply (HM s T O1). destruct ph; inversion E; subst s'; [right; reflexivity|left; split; [reflexivity|]].
      pose proof (i_pc _ _ HI) as P. unfold pc_inv in P. rewrite Epc in P. destruct P as [_ [_ [P _]]]. apply P; reflexivity.
    + inversion E; subst. apply HN; [intros []|discriminate].
    + inversion E; subst. apply HN; [intros []|discriminate].
  - destruct (s_pc s); try discriminate; inversion E; subst; (apply HN; [intros []|discriminate]).
  - destruct (ctl_cases c s s' HI E) as
      [ph kept sl rest n s' Epc Esl _ Es|ph kept sl rest n s' Epc Esl _ _ Es
      |ph kept sl rest n s1 s' Epc Esl _ _ Es1 Es|ph kept sl rest n rec s' Epc Esl _ Es
      |ph kept sl rest n rec s' Epc Esl _ Es|ph kept sl rest n rec o s1 s2 s' Epc Esl _ Es1 Es2 Es
      |kept s1 s' Epc Es1 Es|kept s1 s' Epc Es1 Es|e s' Epc Es|e sl rest s' Epc _ Es|s' Epc Es|sl rest s' Epc _ Es].
    + eapply (HC ph kept sl rest n _ (emit s (EBeforeRun (s_erec s) n))); [exact Epc|rewrite Esl; reflexivity| |apply recs_other; reflexivity|subst s'; reflexivity|subst s'; reflexivity].
      reflexivity.
    + eapply (HC ph kept sl rest n _ (emit s (EBeforeRun (s_erec s) n))); [exact Epc|rewrite Esl; reflexivity| |apply recs_other; reflexivity|subst s'; reflexivity|subst s'; reflexivity].
      reflexivity.
    + subst s' s1. apply HK; [|rewrite Epc; exact I|discriminate]. unfold order_of, live. rewrite Epc.
      cbn -[recs]. rewrite !recs_other by reflexivity. rewrite !map_app. cbn. rewrite Esl. reflexivity.
    + subst s'. apply HK; [|rewrite Epc; exact I|cbn; rewrite Epc; discriminate]. unfold order_of, live. cbn -[recs].
      rewrite recs_other by reflexivity. reflexivity.
    + subst s'. apply HK; [|rewrite Epc; exact I|discriminate]. unfold order_of, live. rewrite Epc. cbn -[recs].
      rewrite recs_other by reflexivity. rewrite !map_app. cbn. rewrite <- app_assoc, Esl. reflexivity.
    + pose proof (i_pc _ _ HI) as P. unfold pc_inv in P. rewrite Epc in P. destruct P as [A _].
      assert (Hin : In (Coro n (CWait rec)) (live s)).
      { unfold live. rewrite Epc. apply in_app_iff. right. left. exact Esl. }
      destruct (w_rec _ _ _ _ _ _ (a_wait _ _ _ _ _ _ _ _ A n rec Hin)) as [z0 Ez].
      eapply (HC ph kept sl rest n _ (emit s (ERunLog n (rr_log (run_lambda o))))); [exact Epc|rewrite Esl; reflexivity| |apply recs_other; reflexivity| |].
      2,3: subst s' s1 s2; destruct (negb _); reflexivity.
      subst rec. reflexivity.
    + subst s1. pose proof (i_pc _ _ HI) as P. unfold pc_inv in P. rewrite Epc in P.
      destruct P as [_ [_ [_ [P2 _]]]]. cbn [List.length] in P2.
      assert (Hc : map sl_coro (compact (s_coros s) kept) = kept) by (apply compact_coros; lia).
      assert (Hlive : live s = kept) by (unfold live; rewrite Epc; cbn; apply app_nil_r).
      destruct (dispatch_cases c s kept s' Hwf HI Epc Es) as [s' E1 E2 E3 E4|m0 s' E1 E2 E3 E4|s' E1 E2 E3]; clear Es; subst s'.
      * apply HK; [|rewrite Epc; exact I|discriminate]. unfold order_of. rewrite Hlive. unfold live. cbn. rewrite Hc. reflexivity.
      * split; [intros _|discriminate]. unfold live in Hlen'. cbn in Hlen'. rewrite map_app, Hc, app_length in Hlen'. cbn in Hlen'.
        assert (Hk0 : kept = []) by (destruct kept; [reflexivity|cbn in Hlen'; lia]). rewrite Hk0 in *.
        unfold order_of, live. cbn -[recs]. rewrite map_app, Hc. cbn -[recs].
        apply gen_next.
        -- assert (G : gen (c_dag c) (order_of s)) by (apply O1; rewrite Epc; exact I).
           unfold order_of in G. rewrite Hlive in G. cbn in G. rewrite app_nil_r in G. exact G.
        -- eapply dispatch_next; eauto.
      * apply HK; [|rewrite Epc; exact I|discriminate]. unfold order_of. rewrite Hlive. unfold live. cbn. rewrite Hc. reflexivity.
    + subst s1. pose proof (i_pc _ _ HI) as P. unfold pc_inv in P. rewrite Epc in P.
      destruct P as [_ [_ [_ [P2 _]]]]. cbn [List.length] in P2.
      assert (Hc : map sl_coro (compact (s_coros s) kept) = kept) by (apply compact_coros; lia).
      assert (Hlive : live s = kept) by (unfold live; rewrite Epc; cbn; apply app_nil_r).
      subst s'. apply HK; [|rewrite Epc; exact I|discriminate]. unfold order_of. rewrite Hlive. unfold live. cbn. rewrite Hc. reflexivity.
    + subst s'. apply HN; [intros []|discriminate].
    + subst s'. apply HN; [intros []|discriminate].
    + subst s'. apply HN; [intros []|discriminate].
    + subst s'. apply HN; [intros []|discriminate].
  - destruct (launchfail_cases c s s' HI E) as [ph [kept [sl [rest [n [Epc [_ [_ [Ep _]]]]]]]]].
    apply HN; rewrite Ep; [intros []|discriminate].
  - assert (Hpc : exists rest, s_pc s' = Unwind ExcVisitor rest).
    { destruct (match s_pc s with Created | Suspended _ => tick c s | Clean _ _ _ => ctl c s true | _ => None end) as [s1|]; [|discriminate].
      unfold visitor_throws in E. destruct (cut_at k _) as [es|]; [|discriminate]. inversion E. eexists. reflexivity. }
    destruct Hpc as [rest Ep]. apply HN; rewrite Ep; [intros []|discriminate].
  - destruct (s_fut s n); try discriminate. inversion E; subst. unfold order_inv', order_of, live in *.
    cbn -[recs] in *. rewrite recs_other by reflexivity. split; assumption.
  - destruct (s_fut s n); try discriminate. inversion E; subst. unfold order_inv', order_of, live in *.
    cbn -[recs] in *. rewrite recs_other by reflexivity. split; assumption.
  - inversion E; subst. unfold order_inv', order_of, live in *. cbn -[recs] in *. split; assumption.
Qed.

Lemma order_reachable c z s : wf_dag (c_dag c) -> c_threads c <= 1 -> reachable c z s -> order_inv' c s.
Proof.
  intros Hwf Ht [ls E].
  assert (G : forall ls s0, Inv c s0 -> order_inv' c s0 -> run_labels c s0 ls = Some s -> order_inv' c s).
  { induction ls0 as [|l ls0 IH]; intros s0 HI O E0; [inversion E0; subst; exact O|].
    cbn in E0. destruct (step c s0 l) as [s1|] eqn:E1; [|discriminate].
    eapply IH; [eapply step_inv; eassumption|eapply order_step; eassumption|exact E0]. }
  apply (G ls (init z)); [apply inv_init| |exact E]. split; [intros []|discriminate].
Qed.

Lemma result_record_pc s er : result s = RRecord er -> s_pc s = Finished /\ er = s_erec s.
Proof. unfold result. destruct (s_pc s); try discriminate. intros H. inversion H. auto. Qed.

(** Two executions of one graph with at most one job at a time, both finished. *)
Lemma sequential_order : forall c1 z1 s1 c2 z2 s2 er1 er2,
  wf_dag (c_dag c1) -> c_dag c2 = c_dag c1 -> c_threads c1 <= 1 -> c_threads c2 <= 1 ->
  reachable c1 z1 s1 -> reachable c2 z2 s2 -> result s1 = RRecord er1 -> result s2 = RRecord er2 ->
  map r_node (er_runs er1) = map r_node (er_runs er2).
Proof.
  intros c1 z1 s1 c2 z2 s2 er1 er2 Hwf Ed T1 T2 R1 R2 E1 E2.
  assert (Hwf2 : wf_dag (c_dag c2)) by (rewrite Ed; exact Hwf).
  pose proof (finished_runs c1 z1 s1 Hwf R1 er1 E1) as A1.
  pose proof (finished_runs c2 z2 s2 Hwf2 R2 er2 E2) as A2.
  destruct (result_record_pc _ _ E1) as [P1 _]. destruct (result_record_pc _ _ E2) as [P2 _].
  destruct (proj2 (order_reachable c1 z1 s1 Hwf T1 R1) P1) as [G1 L1].
  destruct (proj2 (order_reachable c2 z2 s2 Hwf2 T2 R2) P2) as [G2 L2].
  rewrite Ed in G2, L2. rewrite A1, A2, <- !recs_trace.
  eapply gen_unique; [exact G1|exact G2|]. rewrite !map_length. congruence.
Qed.

(** ** The number of ticks when the jobs run inside tick() *)
Definition dtick_inv (c : config) (t : nat) (s : state) : Prop :=
  let N := List.length (node_ids (c_dag c)) in
  match s_pc s with
  | Created => t = 0
  | Suspended PMain => t + List.length (s_todo s) = N /\ 0 < N /\ s_coros s <> []
  | Clean PMain _ _ => t + List.length (s_todo s) = S N /\ 0 < N
  | Clean PDrain _ _ => t = S N /\ 0 < N
  | Suspended PDrain => t = S N /\ 0 < N /\ s_coros s = []
  | Finished => t = (if N =? 0 then 1 else N + 2)
  | _ => True
  end.

Lemma dtick_step c t s l s' : wf_dag (c_dag c) -> c_threads c = 0 -> Inv c s -> dtick_inv c t s ->
  step c s l = Some s' -> dtick_inv c (t + (if is_tick l then 1 else 0)) s'.
Proof.
  intros Hwf H0 HI D E. assert (HI' : Inv c s') by (eapply step_inv; eassumption).
  set (N := List.length (node_ids (c_dag c))) in *.
  assert (Hdef : deferred c = true) by (unfold deferred; rewrite H0; reflexivity).
  assert (HN : match s_pc s' with Created | Suspended _ | Clean _ _ _ | Finished => False | _ => True end ->
               dtick_inv c (t + (if is_tick l then 1 else 0)) s').
  { unfold dtick_inv. destruct (s_pc s'); tauto. }
  assert (HF : is_tick l = false -> s_pc s' = s_pc s -> s_todo s' = s_todo s -> s_coros s' = s_coros s ->
               dtick_inv c (t + (if is_tick l then 1 else 0)) s').
  { intros -> E1 E2 E3. rewrite Nat.add_0_r. unfold dtick_inv in *. rewrite E1, E2, E3. exact D. }
  assert (HC : forall ph k r k' r', is_tick l = false -> s_pc s = Clean ph k r -> s_pc s' = Clean ph k' r' -> s_todo s' = s_todo s ->
               dtick_inv c (t + (if is_tick l then 1 else 0)) s').
  { intros ph k r k' r' -> E1 E2 E3. rewrite Nat.add_0_r. unfold dtick_inv in *. rewrite E1 in D. rewrite E2, E3. exact D. }
  destruct l; cbn [step] in E.
  - unfold tick in E. cbn [is_tick]. destruct (s_pc s) as [|ph| | | | | | |] eqn:Epc; try discriminate.
    + inversion E; subst s'. destruct (start_spec c Hwf s HI Epc) as [R _].
      unfold dtick_inv in D. rewrite Epc in D. subst t.
      inversion R as [? ? cyc L1 L2 L3|? ? m pre post L2 L1 L3 L4 L5 L6 L7|? ? m pre post L2 L1 L3 L4 L5 L6 L7
                 |? ? s1 evd todo Es T1 El Ep Et Hso Ec]; subst.
      * apply HN. rewrite L2. exact I.
      * apply HN. rewrite L2. exact I.
      * apply HN. rewrite L2. exact I.
      * rewrite Es. unfold main_top, drain_top. rewrite Ec.
        pose proof (t_act _ _ T1) as A. destruct (a_snap _ _ _ _ _ _ _ _ A) as [Er _].
        assert (Hn : map r_node (er_runs (s_erec s1)) = []).
        { destruct (er_runs (s_erec s1)) as [|r0 rs0] eqn:Erc; [reflexivity|exfalso].
          pose proof (act_nodup c _ _ _ _ _ _ _ (proj1 Hwf) A) as Hnd.
          rewrite Ec in Hnd. cbn in Hnd. apply NoDup_app_iff in Hnd. destruct Hnd as [_ [_ Hnd]].
          assert (Hb : In (r_node r0) (map r_node (er_runs (s_erec s1)))) by (rewrite Erc; left; reflexivity).
          apply (Hnd (r_node r0)); [|exact Hb].
          match goal with H : forall n, In n (s_todo s1) <-> _ |- _ => apply H end.
          apply (act_where c _ _ _ _ _ _ _ A). right; right; exact Hb. }
        pose proof (Permutation_length (a_perm _ _ _ _ _ _ _ _ A)) as Hl. rewrite Ec, Hn in Hl. cbn in Hl.
        rewrite app_nil_r in Hl. fold N in Hl.
        destruct (s_todo s1) as [|x l'] eqn:Et1.
        -- unfold dtick_inv. cbn -[N]. fold N. cbn in Hl. rewrite Hl. reflexivity.
        -- unfold dtick_inv. cbn -[N]. fold N. rewrite Et1. cbn [List.length] in *. lia.
    + unfold dtick_inv in D. rewrite Epc in D. fold N in D. destruct ph; inversion E; subst s'.
      * destruct D as [D1 [D2 D3]]. unfold main_top, drain_top. destruct (s_todo s) eqn:Et.
        -- destruct (s_coros s) eqn:Ec; [destruct (D3 eq_refl)|]. unfold dtick_inv. cbn -[N]. fold N. cbn in D1. lia.
        -- unfold dtick_inv. cbn -[N]. fold N. rewrite Et. cbn in *. lia.
      * destruct D as [D1 [D2 D3]]. unfold drain_top. rewrite D3. unfold dtick_inv. cbn -[N]. fold N.
        destruct (N =? 0) eqn:EN; [apply Nat.eqb_eq in EN|]; lia.
    + inversion E; subst. apply HN. exact I.
    + inversion E; subst. apply HN. exact I.
  - destruct (s_pc s); try discriminate; inversion E; subst; apply HN; exact I.
  - destruct (ctl_cases c s s' HI E) as
      [ph kept sl rest n s' Epc Esl _ Es|ph kept sl rest n s' Epc Esl _ _ Es
      |ph kept sl rest n s1 s' Epc Esl _ _ Es1 Es|ph kept sl rest n rec s' Epc Esl _ Es
      |ph kept sl rest n rec s' Epc Esl _ Es|ph kept sl rest n rec o s1 s2 s' Epc Esl _ Es1 Es2 Es
      |kept s1 s' Epc Es1 Es|kept s1 s' Epc Es1 Es|e s' Epc Es|e sl rest s' Epc _ Es|s' Epc Es|sl rest s' Epc _ Es].
    + eapply HC; [reflexivity|exact Epc|subst s'; reflexivity|subst s'; reflexivity].
    + eapply HC; [reflexivity|exact Epc|subst s'; reflexivity|subst s'; reflexivity].
    + eapply HC; [reflexivity|exact Epc|subst s'; reflexivity|subst s' s1; reflexivity].
    + apply HF; subst s'; reflexivity.
    + eapply HC; [reflexivity|exact Epc|subst s'; reflexivity|subst s'; reflexivity].
    + eapply HC; [reflexivity|exact Epc|subst s' s1 s2; destruct (negb _); reflexivity..].
    + subst s1. pose proof (i_pc _ _ HI) as P. unfold pc_inv in P. rewrite Epc in P.
      destruct P as [A [_ [_ [P2 [_ [_ P3]]]]]]. specialize (P3 Hdef). rewrite P3 in *.
      assert (Hc : compact (s_coros s) [] = []).
      { apply (map_eq_nil sl_coro). apply compact_coros. cbn. lia. }
      unfold dtick_inv in D. rewrite Epc in D. fold N in D. destruct D as [D1 D2].
      destruct (dispatch_cases c s [] s' Hwf HI Epc Es) as [s' E1 E2 E3 E4|m0 s' E1 E2 E3 E4|s' E1 E2 E3]; clear Es.
      * lia.
      * subst s'. cbn [s_todo set_coros] in E2. unfold act in A.
        pose proof (erase_length m0 (s_todo s) (a_sorted _ _ _ _ _ _ _ _ A) E2) as El.
        unfold dtick_inv. cbn -[N set_erase]. fold N. unfold set_erase, nid in *. split; [lia|]. split; [exact D2|].
        rewrite Hc. discriminate.
      * cbn in E2. destruct (E2 Hc).
    + subst s1 s'. pose proof (i_pc _ _ HI) as P. unfold pc_inv in P. rewrite Epc in P.
      destruct P as [A [_ [_ [P2 [_ [_ P3]]]]]]. specialize (P3 Hdef). rewrite P3 in *.
      unfold dtick_inv in *. rewrite Epc in D. cbn -[N]. fold N in D |- *.
      split; [lia|]. split; [apply D|]. apply (map_eq_nil sl_coro). apply compact_coros. cbn. lia.
    + subst s'. apply HN. exact I.
    + subst s'. apply HN. exact I.
    + subst s'. apply HN. exact I.
    + subst s'. apply HN. exact I.
  - destruct (launchfail_cases c s s' HI E) as [ph [kept [sl [rest [n [Epc [_ [_ [Ep _]]]]]]]]].
    apply HN; rewrite Ep; exact I.
  - assert (Hpc : exists rest, s_pc s' = Unwind ExcVisitor rest).
    { destruct (match s_pc s with Created | Suspended _ => tick c s | Clean _ _ _ => ctl c s true | _ => None end) as [s1|]; [|discriminate].
      unfold visitor_throws in E. destruct (cut_at k _) as [es|]; [|discriminate]. inversion E. eexists. reflexivity. }
    destruct Hpc as [rest Ep]. apply HN; rewrite Ep; exact I.
  - destruct (s_fut s n); try discriminate. inversion E; subst. apply HF; reflexivity.
  - destruct (s_fut s n); try discriminate. inversion E; subst. apply HF; reflexivity.
  - inversion E; subst. apply HF; reflexivity.
Qed.

Lemma deferred_ticks : forall c z ls s er,
  wf_dag (c_dag c) -> c_threads c = 0 -> run_labels c (init z) ls = Some s -> result s = RRecord er ->
  let N := List.length (node_ids (c_dag c)) in
  ticks ls = if N =? 0 then 1 else N + 2.
Proof.
  intros c z ls s er Hwf H0 E Hr N.
  assert (G : forall ls t s0, Inv c s0 -> dtick_inv c t s0 -> run_labels c s0 ls = Some s -> dtick_inv c (t + ticks ls) s).
  { induction ls0 as [|l ls0 IH]; intros t s0 HI D E0.
    - inversion E0; subst. unfold ticks; cbn. rewrite Nat.add_0_r. exact D.
    - cbn in E0. destruct (step c s0 l) as [s1|] eqn:E1; [|discriminate].
      replace (t + ticks (l :: ls0)) with (t + (if is_tick l then 1 else 0) + ticks ls0)
        by (unfold ticks; cbn; destruct (is_tick l); cbn; lia).
      eapply IH; [eapply step_inv; eassumption|eapply dtick_step; eassumption|exact E0]. }
  specialize (G ls 0 (init z) (inv_init c z) eq_refl E). unfold dtick_inv in G.
  rewrite (proj1 (result_record_pc _ _ Hr)) in G. exact G.
Qed.
