(** Only what follows from the declarations matters (C104). *)
From Coq Require Import String Relations Permutation Lia.
From Verif Require Import Model.Common Model.Records Model.Jobs Model.TaskSet Model.Dag
     Model.Sched Model.Exec Model.ExecSet Spec.Graph Spec.Trace Spec.Tasks Spec.Machine Spec.Redundant
     Proofs.Sets Proofs.TraceFacts Proofs.ExecInv Proofs.LogFacts Proofs.ExecProps Proofs.ExecProps2
     Proofs.ExecProps3 Proofs.ExecProps4 Proofs.RootCause Proofs.SetExec Proofs.TaskFacts Proofs.MachineFacts.
Open Scope nat_scope.
Open Scope list_scope.

Lemma clos_t_rt {A} (R : A -> A -> Prop) a b : clos_trans A R a b -> clos_refl_trans A R a b.
Proof. induction 1; [apply rt_step; assumption|eapply rt_trans; eassumption]. Qed.
Lemma clos_rt_t {A} (R : A -> A -> Prop) a b : clos_refl_trans A R a b -> a = b \/ clos_trans A R a b.
Proof.
  induction 1 as [a b H|a|a b c _ IH1 _ IH2]; [right; apply t_step; exact H|left; reflexivity|].
  destruct IH1 as [->|H1]; [exact IH2|]. destruct IH2 as [<-|H2]; right; [exact H1|eapply t_trans; eassumption].
Qed.
Lemma same_closure_sym {A} (R S : A -> A -> Prop) : same_closure R S -> same_closure S R.
Proof. intros H a b. symmetry. apply H. Qed.
Lemma same_closure_rt {A} (R S : A -> A -> Prop) a b : same_closure R S ->
  (clos_refl_trans A R a b <-> clos_refl_trans A S a b).
Proof.
  intros H. split; intros G; apply clos_rt_t in G; destruct G as [->|G]; try apply rt_refl; apply clos_t_rt, H, G.
Qed.

Lemma same_meaning_sym c1 c2 : same_meaning c1 c2 -> same_meaning c2 c1.
Proof.
  intros [A B C D E F G I]. constructor; try (apply same_closure_sym; assumption).
  - intros n. symmetry. apply A.
  - intros n Hn. symmetry. apply E, A, Hn.
  - intros n Hn. symmetry. apply F, A, Hn.
  - intros n r Hn. symmetry. apply G, A, Hn.
  - symmetry. exact I.
Qed.

Lemma clos_in_dag d k a b : wf_dag d -> clos_trans nid (fun a b => In (Edge a b k) (d_edges d)) a b ->
  In a (node_ids d) /\ In b (node_ids d).
Proof.
  intros [_ Hwf]. induction 1 as [a b H|a b x _ [IH _] _ [_ IH2]]; [exact (Hwf _ H)|auto].
Qed.

Lemma failed_iff c h n : failed_in c h n <->
  exists b o, clos_refl_trans nid (requires (c_dag c)) n b /\ In (Ends b o) h /\ job_code o <> 0%Z.
Proof.
  split.
  - induction 1 as [n o H1 H2|n p Hp _ (b & o & H1 & H2)].
    + exists n, o. split; [apply rt_refl|auto].
    + exists b, o. split; [eapply rt_trans; [apply rt_step; exact Hp|exact H1]|exact H2].
  - intros (b & o & Hp & H1 & H2). apply clos_rt_rt1n in Hp. induction Hp as [n|n p b Hp _ IH].
    + eapply failed_job; eassumption.
    + eapply failed_dep; [exact Hp|apply IH; assumption].
Qed.
Lemma blocked_iff c h n : (exists p, requires (c_dag c) n p /\ failed_in c h p) <->
  exists b o, clos_trans nid (requires (c_dag c)) n b /\ In (Ends b o) h /\ job_code o <> 0%Z.
Proof.
  split.
  - intros (p & Hp & Hf). apply failed_iff in Hf. destruct Hf as (b & o & H1 & H2). exists b, o. split; [|exact H2].
    apply clos_rt_t in H1. destruct H1 as [<-|H1]; [apply t_step; exact Hp|eapply t_trans; [apply t_step; exact Hp|exact H1]].
  - intros (b & o & Hp & H1). apply clos_trans_t1n in Hp. destruct Hp as [b Hp|p b Hp Hq]; exists p || exists b; (split; [exact Hp|]);
      apply failed_iff.
    + exists b, o. split; [apply rt_refl|exact H1].
    + exists b, o. split; [apply clos_t_rt, clos_t1n_trans, Hq|exact H1].
Qed.

Section Two.
Variables c1 c2 : config.
Hypothesis SM : same_meaning c1 c2.
Hypothesis W1 : wf_dag (c_dag c1).

Lemma sm_invalidated n : In n (node_ids (c_dag c1)) -> (Invalidated c1 n <-> Invalidated c2 n).
Proof.
  intros Hn.
  assert (M : forall m, clos_refl_trans nid (inval_by (c_dag c1)) n m -> In m (node_ids (c_dag c1))).
  { intros m H. apply clos_rt_t in H. destruct H as [<-|H]; [exact Hn|].
    apply (clos_in_dag (c_dag c1) INVALIDATED_BY n m W1 H). }
  split; intros (m & Hp & log & Hj).
  - exists m. split; [apply (same_closure_rt _ _ n m (sm_inval _ _ SM)), Hp|].
    exists log. rewrite <- (sm_answer _ _ SM m (M m Hp)). exact Hj.
  - apply (same_closure_rt _ _ n m (sm_inval _ _ SM)) in Hp. exists m. split; [exact Hp|].
    exists log. rewrite (sm_answer _ _ SM m (M m Hp)). exact Hj.
Qed.

Lemma sm_blocked h n : (exists p, requires (c_dag c1) n p /\ failed_in c1 h p) <->
  (exists p, requires (c_dag c2) n p /\ failed_in c2 h p).
Proof.
  rewrite !blocked_iff. split; intros (b & o & Hp & H); exists b, o; (split; [apply (sm_req _ _ SM), Hp|exact H]).
Qed.
Lemma sm_settled h n : In n (node_ids (c_dag c1)) -> settled c1 h n -> settled c2 h n.
Proof.
  intros Hn [H|[H|H]]; [left; exact H|right; left; rewrite <- (sm_invalidated n Hn); exact H|].
  right; right. apply sm_blocked, H.
Qed.

Lemma sm_machine h : machine c1 h -> machine c2 h.
Proof.
  induction 1 as [|h n Hm IH [Hac Hex] (T1 & T2 & T3 & T4 & T5) Hs Hl|h n o Hm IH H1 H2]; [constructor| |constructor; assumption].
  assert (HA : forall m, In m (active h) -> In m (node_ids (c_dag c1))).
  { assert (G : forall h, machine c1 h -> forall m, In (Begins m) h -> In m (node_ids (c_dag c1))).
    { induction 1 as [|h' n' _ IH' _ (T & _) _ _|h' n' o' _ IH' _ _]; intros m0 Hin; [destruct Hin| |].
      - apply in_app_iff in Hin. destruct Hin as [Hin|[Hin|[]]]; [exact (IH' _ Hin)|injection Hin as <-; exact T].
      - apply in_app_iff in Hin. destruct Hin as [Hin|[Hin|[]]]; [exact (IH' _ Hin)|discriminate Hin]. }
    assert (F : forall h' l m, In m (fold_left follow h' l) -> In m l \/ In (Begins m) h').
    { induction h' as [|j h' IH']; intros l m Hin; [left; exact Hin|]. cbn [fold_left] in Hin.
      destruct (IH' _ _ Hin) as [H|H]; [|right; right; exact H]. destruct j as [x|x o]; cbn [follow] in H.
      - destruct H as [->|H]; [right; left; reflexivity|left; exact H].
      - left. unfold set_erase in H. apply filter_In in H. apply H. }
    intros m Hin. destruct (F h [] m Hin) as [[]|H]. exact (G h Hm m H). }
  apply machine_begin.
  - exact IH.
  - split.
    + intros [x Hx]. apply Hac. exists x. apply (sm_after _ _ SM), Hx.
    + intros m Hm'. apply (sm_nodes _ _ SM) in Hm'.
      rewrite <- (sm_job _ _ SM m Hm'), <- (sm_answer _ _ SM m Hm'). exact (Hex m Hm').
  - split; [apply (sm_nodes _ _ SM), T1|]. split; [exact T2|]. split; [apply (sm_invalidated n T1), T3|]. split.
    + intros p Hp Hf. destruct (proj2 (sm_blocked h n) (ex_intro _ p (conj Hp Hf))) as (q & Hq & Hf'). exact (T4 q Hq Hf').
    + intros m Hp. apply (sm_after _ _ SM) in Hp. apply sm_settled; [|exact (T5 m Hp)].
      apply (clos_in_dag (c_dag c1) AFTER n m W1 Hp).
  - intros m Hin r Hr Hr'. apply (Hs m Hin r); [apply (sm_res _ _ SM n r T1), Hr|apply (sm_res _ _ SM m r (HA m Hin)), Hr'].
  - rewrite <- (sm_threads _ _ SM). exact Hl.
Qed.

Lemma sm_plenty : wf_dag (c_dag c2) -> plenty c1 -> plenty c2.
Proof.
  intros [N2 _] [P1 P2]. destruct W1 as [N1 _]. split.
  - intros a b Ha Hb Hab r Hr Hr'. apply (sm_nodes _ _ SM) in Ha. apply (sm_nodes _ _ SM) in Hb.
    apply (P1 a b Ha Hb Hab r); [apply (sm_res _ _ SM a r Ha), Hr|apply (sm_res _ _ SM b r Hb), Hr'].
  - rewrite <- (sm_threads _ _ SM). assert (H : incl (node_ids (c_dag c2)) (node_ids (c_dag c1))).
    { intros x Hx. apply (sm_nodes _ _ SM), Hx. }
    pose proof (NoDup_incl_length N2 H). lia.
Qed.
End Two.

Lemma same_jobs : forall c1 c2 z h,
  wf_dag (c_dag c1) -> requires_after (c_dag c1) -> wf_dag (c_dag c2) -> requires_after (c_dag c2) ->
  same_meaning c1 c2 -> plenty c1 ->
  ((exists s, reachable c1 z s /\ jobs (trace s) = h) <-> (exists s, reachable c2 z s /\ jobs (trace s) = h)).
Proof.
  intros c1 c2 z h W1 R1 W2 R2 SM HP. split; intros (s & HR & <-).
  - apply (machine_complete c2 z _ W2 R2 (sm_plenty c1 c2 SM W1 W2 HP)). apply (sm_machine c1 c2 SM W1).
    exact (machine_sound c1 z s W1 R1 HR).
  - apply (machine_complete c1 z _ W1 R1 HP). apply (sm_machine c2 c1 (same_meaning_sym _ _ SM) W2).
    exact (machine_sound c2 z s W2 R2 HR).
Qed.

(** * What happens to each task *)
Section Fate.
Variables (c : config) (z : Z) (s : state).
Hypothesis W : wf_dag (c_dag c).
Hypothesis RA : requires_after (c_dag c).
Hypothesis HR : reachable c z s.

Lemma req_recorded n b : recorded (trace s) n -> clos_trans nid (requires (c_dag c)) n b -> recorded (trace s) b.
Proof.
  intros Hn Hp. revert Hn. apply clos_trans_t1n in Hp. induction Hp as [n b H|n x b H _ IH]; intros [r [Hr <-]].
  - pose proof (record_facts c z s W HR r Hr) as [_ [F _]]. apply F, RA, H.
  - apply IH. pose proof (record_facts c z s W HR r Hr) as [_ [F _]]. apply F, RA, H.
Qed.

(** A task has a bad requirement iff something it requires, however indirectly, failed. *)
Lemma bad_iff r : In r (records (trace s)) ->
  (bad_requirement c (trace s) (r_node r) <->
   exists rb, In rb (records (trace s)) /\ clos_trans nid (requires (c_dag c)) (r_node r) (r_node rb) /\ r_status rb = FAIL).
Proof.
  intros Hr. split.
  - intros (b & rb & H1 & H2 & H3 & H4). destruct (r_status rb) eqn:E; try discriminate H4.
    + destruct (root_cause c z s rb W HR H2 E) as (b' & rb' & o & Hp & G1 & G2 & G3 & _).
      exists rb'. split; [exact G1|]. split; [|exact G3]. rewrite G2, H3 in *. eapply t_trans; [apply t_step; exact H1|exact Hp].
    + exists rb. split; [exact H2|]. split; [rewrite H3; apply t_step; exact H1|exact E].
  - intros (rb & H2 & Hp & E). apply clos_trans_t1n in Hp. remember (r_node rb) as b eqn:Eb.
    inversion Hp as [y Hq|x y Hq Hq']; subst.
    + exists (r_node rb), rb. rewrite E. auto.
    + apply clos_t1n_trans in Hq'. assert (Hx : recorded (trace s) x).
      { apply (req_recorded (r_node r) x); [exists r; auto|apply t_step; exact Hq]. }
      destruct Hx as [rx [Hx Ex]]. exists x, rx. split; [exact Hq|]. split; [exact Hx|]. split; [exact Ex|].
      destruct (failed_blocks_dependants c z s x (r_node rb) rb W RA HR Hq' H2 eq_refl) as (_ & G & _); [rewrite E; reflexivity|].
      rewrite (G rx Hx Ex). reflexivity.
Qed.

(** The record of a requirement is older. *)
Lemma req_older r l : (exists a er x, s_log s = a ++ EAfterRun er r x :: l) ->
  forall b, clos_trans nid (requires (c_dag c)) (r_node r) b ->
  forall rb, In rb (records (trace s)) -> r_node rb = b ->
  exists a er x l', s_log s = a ++ EAfterRun er rb x :: l' /\ List.length l' < List.length l.
Proof.
  pose proof (r_log c z s W HR) as L.
  assert (One : forall r l, (exists a er x, s_log s = a ++ EAfterRun er r x :: l) ->
     forall b, requires (c_dag c) (r_node r) b -> forall rb, In rb (records (trace s)) -> r_node rb = b ->
     exists a er x l', s_log s = a ++ EAfterRun er rb x :: l' /\ List.length l' < List.length l).
  { intros r0 l0 (a & er & x & El) b Hb rb Hrb Eb.
    pose proof L as L'. rewrite El in L'. apply log_ok_app in L'. destruct L' as [[He _] Ll].
    cbn [ev_cond] in He. destruct He as [_ [_ [_ [_ [Har _]]]]].
    destruct (Har b (RA _ _ Hb)) as [rb' [H1 H2]].
    assert (rb' = rb).
    { eapply (rec_unique c); [exact L| |rewrite recs_trace; exact Hrb|congruence].
      rewrite El. apply recs_In in H1. destruct H1 as [er' [x' H1]]. apply recs_In. exists er', x'.
      apply in_app_iff. right; right; exact H1. }
    subst rb'. destruct (rec_at c _ _ Ll H1) as [p1 [er' [x' [p2 [E' _]]]]].
    exists (a ++ EAfterRun er r0 x :: p1), er', x', p2. rewrite El, E', <- app_assoc. split; [reflexivity|].
    rewrite app_length. cbn [List.length]. lia. }
  intros Hpos b Hp. apply clos_trans_t1n in Hp. remember (r_node r) as n eqn:En. revert r l Hpos En.
  induction Hp as [n b H|n y b H Hp IH]; intros r l Hpos En rb Hrb Eb; subst n.
  - exact (One r l Hpos b H rb Hrb Eb).
  - destruct Hpos as (a & er & x & El).
    assert (Hr : In r (records (trace s))).
    { rewrite <- recs_trace. apply recs_In. exists er, x. rewrite El. apply in_app_iff. right; left; reflexivity. }
    destruct (req_recorded (r_node r) y) as [ry [Hy Ey]]; [exists r; auto|apply t_step; exact H|].
    destruct (One r l (ex_intro _ a (ex_intro _ er (ex_intro _ x El))) y H ry Hy Ey) as (a' & er' & x' & l' & El' & Hl').
    destruct (IH ry l' (ex_intro _ a' (ex_intro _ er' (ex_intro _ x' El'))) (eq_sym Ey) rb Hrb Eb) as (a2 & er2 & x2 & l2 & E2 & H2).
    exists a2, er2, x2, l2. split; [exact E2|lia].
Qed.
End Fate.

Lemma same_fate : forall c1 c2 z1 s1 z2 s2,
  wf_dag (c_dag c1) -> requires_after (c_dag c1) -> wf_dag (c_dag c2) -> requires_after (c_dag c2) ->
  same_meaning c1 c2 -> reachable c1 z1 s1 -> reachable c2 z2 s2 ->
  (forall n o1 o2, In (EEnd n o1) (trace s1) -> In (EEnd n o2) (trace s2) -> o1 = o2) ->
  forall r1 r2, In r1 (records (trace s1)) -> In r2 (records (trace s2)) -> r_node r1 = r_node r2 ->
  r_status r1 = r_status r2 /\ r_retcode r1 = r_retcode r2 /\ r_output r1 = r_output r2.
Proof.
  intros c1 c2 z1 s1 z2 s2 W1 RA1 W2 RA2 SM HR1 HR2 Ho.
  pose proof (r_log c1 z1 s1 W1 HR1) as L1.
  assert (G : forall k r1, (exists a er x l, s_log s1 = a ++ EAfterRun er r1 x :: l /\ List.length l < k) ->
     forall r2, In r2 (records (trace s2)) -> r_node r1 = r_node r2 ->
     r_status r1 = r_status r2 /\ r_retcode r1 = r_retcode r2 /\ r_output r1 = r_output r2).
  { induction k as [|k IH]; intros r1 [a [er [x [l [El Hl]]]]] r2 Hr2 En; [lia|].
    assert (Hr1 : In r1 (records (trace s1))).
    { rewrite <- recs_trace. apply recs_In. exists er, x. rewrite El. apply in_app_iff. right; left; reflexivity. }
    assert (Hpos : forall rb, clos_trans nid (requires (c_dag c1)) (r_node r1) (r_node rb) -> In rb (records (trace s1)) ->
              exists a er x l, s_log s1 = a ++ EAfterRun er rb x :: l /\ List.length l < k).
    { intros rb Hp Hrb.
      destruct (req_older c1 z1 s1 W1 RA1 HR1 r1 l (ex_intro _ a (ex_intro _ er (ex_intro _ x El))) (r_node rb) Hp rb Hrb eq_refl)
        as (a' & er' & x' & l' & E' & H'). exists a', er', x', l'. split; [exact E'|lia]. }
    assert (Hn : In (r_node r1) (node_ids (c_dag c1))) by (apply (record_facts c1 z1 s1 W1 HR1 r1 Hr1)).
    assert (HB : bad_requirement c1 (trace s1) (r_node r1) <-> bad_requirement c2 (trace s2) (r_node r2)).
    { rewrite (bad_iff c1 z1 s1 W1 RA1 HR1 r1 Hr1), (bad_iff c2 z2 s2 W2 RA2 HR2 r2 Hr2). rewrite <- En. split.
      - intros (rb & H1 & H2 & H3). pose proof H2 as H2'. apply (sm_req _ _ SM) in H2'.
        destruct (req_recorded c2 z2 s2 W2 RA2 HR2 (r_node r1) (r_node rb)) as [rb2 [G1 G2]]; [exists r2; auto|exact H2'|].
        exists rb2. split; [exact G1|]. rewrite G2. split; [exact H2'|].
        destruct (IH rb (Hpos rb H2 H1) rb2 G1 (eq_sym G2)) as [Es _]. congruence.
      - intros (rb & H1 & H2 & H3). pose proof H2 as H2'. apply (sm_req _ _ SM) in H2'.
        destruct (req_recorded c1 z1 s1 W1 RA1 HR1 (r_node r1) (r_node rb)) as [rb1 [G1 G2]]; [exists r1; auto|exact H2'|].
        exists rb1. split; [exact G1|]. rewrite G2. split; [exact H2'|]. rewrite <- G2 in H2'.
        destruct (IH rb1 (Hpos rb1 H2' G1) rb H1 G2) as [Es _]. congruence. }
    destruct (status_rule c1 z1 s1 r1 W1 RA1 HR1 Hr1) as [A1 [A2 [A3 A4]]].
    destruct (status_rule c2 z2 s2 r2 W2 RA2 HR2 Hr2) as [B1 [B2 [B3 B4]]].
    cbn zeta in *. rewrite <- HB in B1, B2. rewrite <- En in B2, B3. rewrite <- (sm_invalidated c1 c2 SM W1 _ Hn) in B2.
    assert (Hran : forall (P : Prop), (r_status r1 = OK \/ r_status r1 = FAIL) -> (r_status r2 = OK \/ r_status r2 = FAIL) ->
       r_status r1 = r_status r2 /\ r_retcode r1 = r_retcode r2 /\ r_output r1 = r_output r2).
    { intros _ H1 H2. destruct (A3 H1) as [o1 [X1 [X2 [X3 X4]]]]. destruct (B3 H2) as [o2 [Y1 [Y2 [Y3 Y4]]]].
      rewrite (Ho _ _ _ X1 Y1) in X2, X3.
      assert (Er : r_retcode r1 = r_retcode r2) by congruence. split; [|split; [exact Er|congruence]].
      rewrite Er in X4. destruct H1 as [H1|H1], H2 as [H2|H2]; rewrite H1, H2 in *; try reflexivity.
      - assert (C : OK = FAIL) by (apply X4, Y4; reflexivity). discriminate C.
      - assert (C : OK = FAIL) by (apply Y4, X4; reflexivity). discriminate C. }
    assert (Hzero : r_status r1 = r_status r2 -> (r_status r1 = DEPF \/ r_status r1 = SKIP) ->
       r_status r1 = r_status r2 /\ r_retcode r1 = r_retcode r2 /\ r_output r1 = r_output r2).
    { intros Es H. destruct (A4 H) as [X1 X2]. rewrite Es in H. destruct (B4 H) as [Y1 Y2]. rewrite X1, X2, Y1, Y2. auto. }
    clear IH Hpos El L1.
    destruct (r_status r1) eqn:S1, (r_status r2) eqn:S2; try (apply Hzero; [reflexivity|auto]; fail);
      try (apply (Hran True); auto; fail); exfalso.
    all: try (assert (C : OK = DEPF) by tauto; discriminate C).
    all: try (assert (C : FAIL = DEPF) by tauto; discriminate C).
    all: try (assert (C : SKIP = DEPF) by tauto; discriminate C).
    all: try (assert (C : OK = SKIP) by tauto; discriminate C).
    all: try (assert (C : FAIL = SKIP) by tauto; discriminate C).
    all: tauto. }
  intros r1 r2 Hr1 Hr2 En. pose proof Hr1 as Hr1'. rewrite <- recs_trace in Hr1'.
  destruct (rec_at c1 _ _ L1 Hr1') as [a [er [x [l [El [He _]]]]]].
  apply (G (S (List.length l)) r1); [|exact Hr2|exact En]. exists a, er, x, l. auto.
Qed.

(** * One more edge *)
Lemma closure_add {A} (R S : A -> A -> Prop) a b :
  (forall x y, S x y <-> R x y \/ (x = a /\ y = b)) -> clos_trans A R a b -> same_closure R S.
Proof.
  intros HS Hab x y. split; induction 1 as [x y H|x w y _ IH1 _ IH2]; try (eapply t_trans; eassumption).
  - apply t_step, HS. left; exact H.
  - apply HS in H. destruct H as [H|[-> ->]]; [apply t_step; exact H|exact Hab].
Qed.
Lemma closure_same {A} (R S : A -> A -> Prop) : (forall x y, S x y <-> R x y) -> same_closure R S.
Proof.
  intros HS x y. split; induction 1 as [x y H|x w y _ IH1 _ IH2]; try (eapply t_trans; eassumption);
    apply t_step, HS, H.
Qed.

Definition of_kind (c : config) (k : ekind) (a b : nid) : Prop := In (Edge a b k) (d_edges (c_dag c)).
Lemma with_edge_iff c a b k k' x y : of_kind (with_edge c a b k) k' x y <->
  of_kind c k' x y \/ (k' = k /\ x = a /\ y = b).
Proof.
  unfold of_kind. cbn. split.
  - intros [H|H]; [injection H as <- <- <-; right; auto|left; exact H].
  - intros [H|(-> & -> & ->)]; [right; exact H|left; reflexivity].
Qed.
Lemma redundant_edge c a b k : wf_dag (c_dag c) -> requires_after (c_dag c) ->
  clos_trans nid (of_kind c k) a b -> (k = REQUIRES -> runs_after (c_dag c) a b) ->
  wf_dag (c_dag (with_edge c a b k)) /\ requires_after (c_dag (with_edge c a b k)) /\
  same_meaning c (with_edge c a b k).
Proof.
  intros W RA Hab Hk. destruct (clos_in_dag (c_dag c) k a b W Hab) as [Ha Hb].
  assert (K : forall k', same_closure (of_kind c k') (of_kind (with_edge c a b k) k')).
  { intros k'. destruct (ekind_eqb k' k) eqn:E.
    - assert (k' = k) by (destruct k', k; try discriminate E; reflexivity). subst k'.
      apply (closure_add _ _ a b); [|exact Hab]. intros x y. rewrite with_edge_iff. tauto.
    - apply closure_same. intros x y. rewrite with_edge_iff.
      split; [intros [H|(-> & _)]; [exact H|destruct k; discriminate E]|auto]. }
  split; [|split].
  - destruct W as [N I]. split; [exact N|]. intros e [<-|He]; [split; assumption|exact (I e He)].
  - intros x y H. apply (with_edge_iff c a b k REQUIRES) in H. apply (with_edge_iff c a b k AFTER).
    destruct H as [H|(<- & -> & ->)]; [left; exact (RA _ _ H)|left; exact (Hk eq_refl)].
  - constructor; try reflexivity.
    + exact (K AFTER).
    + exact (K REQUIRES).
    + exact (K INVALIDATED_BY).
Qed.

(** * Task sets *)
Section Sets.
Variables (st1 st2 : store) (ts : task_set) (filt : string) (iv : tid -> inval_answer) (addr : tid -> nid) (c1 c2 : config).
Hypothesis SD : same_declarations st1 st2 ts filt.

Lemma sd_selected t : selected st1 ts filt t <-> selected st2 ts filt t.
Proof.
  split; intros (p & r & H1 & H2 & H3); exists p, r; (split; [exact H1|]; split; [exact H2|]);
    apply (same_closure_rt _ _ r t (sd_dep _ _ _ _ SD)), H3.
Qed.
End Sets.

(** The edges of one kind, as a relation on tasks. *)
Definition declares (st : store) (k : ekind) (x y : tid) : Prop :=
  depends_on st x y \/ (k = AFTER /\ In y (t_run_after (st_get st x))) \/
  (k = INVALIDATED_BY /\ In y (t_invalidated_by (st_get st x))).

Lemma edges_path st ts filt iv addr c k : execution_of st ts filt iv addr c ->
  forall a b, clos_trans nid (of_kind c k) a b <->
    exists x y, selected st ts filt x /\ a = addr x /\ b = addr y /\
      clos_trans tid (fun x y => selected st ts filt x /\ selected st ts filt y /\ declares st k x y) x y.
Proof.
  intros HE. destruct (exec_facts _ _ _ _ _ _ HE) as (_ & _ & _ & _ & _ & I & E & _). intros a b. split.
  - intros Hp. apply clos_trans_t1n in Hp. induction Hp as [a b H|a m b H _ (x & y & Sx & -> & -> & IH)].
    + apply E in H. destruct H as (x & y & Sx & Sy & -> & -> & D). exists x, y. split; [exact Sx|].
      split; [reflexivity|]. split; [reflexivity|]. apply t_step. auto.
    + apply E in H. destruct H as (x0 & y0 & Sx0 & Sy0 & -> & E0 & D). apply (I _ _ Sx Sy0) in E0. subst y0.
      exists x0, y. split; [exact Sx0|]. split; [reflexivity|]. split; [reflexivity|].
      eapply t_trans; [apply t_step; split; [exact Sx0|split; [exact Sx|exact D]]|exact IH].
  - intros (x & y & _ & -> & -> & Hp). induction Hp as [x y (Sx & Sy & D)|x w y _ IH1 _ IH2]; [|eapply t_trans; eassumption].
    apply t_step. apply E. exists x, y. auto.
Qed.

Lemma declared_same st1 st2 ts filt iv addr c1 c2 :
  execution_of st1 ts filt iv addr c1 -> execution_of st2 ts filt iv addr c2 ->
  c_threads c1 = c_threads c2 -> same_declarations st1 st2 ts filt -> same_meaning c1 c2.
Proof.
  intros X1 X2 Ht SD. pose proof (sd_selected _ _ _ _ SD) as Sel.
  destruct (exec_facts _ _ _ _ _ _ X1) as (_ & _ & _ & T1 & N1 & _ & _ & C1 & V1).
  destruct (exec_facts _ _ _ _ _ _ X2) as (_ & _ & _ & T2 & N2 & _ & _ & C2 & V2).
  assert (K : forall k, same_closure (fun x y => selected st1 ts filt x /\ selected st1 ts filt y /\ declares st1 k x y)
                                     (fun x y => selected st2 ts filt x /\ selected st2 ts filt y /\ declares st2 k x y) ->
              same_closure (of_kind c1 k) (of_kind c2 k)).
  { intros k H a b. rewrite (edges_path _ _ _ _ _ _ k X1), (edges_path _ _ _ _ _ _ k X2).
    split; intros (x & y & Sx & Ex & Ey & Hp); exists x, y; (split; [apply Sel, Sx|]; split; [exact Ex|]; split; [exact Ey|apply H, Hp]). }
  constructor.
  - intros n. split; intros H.
    + destruct (N1 n H) as (t & St & ->). apply T2, Sel, St.
    + destruct (N2 n H) as (t & St & ->). apply T1, Sel, St.
  - apply (K AFTER). intros a b.
    transitivity (clos_trans tid (selected_after st1 ts filt) a b); [|transitivity (clos_trans tid (selected_after st2 ts filt) a b)].
    + apply closure_same. intros x y. unfold selected_after, task_after, declares, depends_on. intuition discriminate.
    + apply (sd_after _ _ _ _ SD).
    + apply closure_same. intros x y. unfold selected_after, task_after, declares, depends_on. intuition discriminate.
  - apply (K REQUIRES). intros a b.
    assert (Q : forall st, (forall x y, selected st ts filt x -> depends_on st x y -> selected st ts filt y) -> 
       clos_trans tid (fun x y => selected st ts filt x /\ selected st ts filt y /\ declares st REQUIRES x y) a b <->
       selected st ts filt a /\ clos_trans tid (depends_on st) a b).
    { intros st Hs. split.
      - intros Hp. split.
        + clear -Hp. induction Hp as [x y (H & _)|x w y _ IH1 _ _]; assumption.
        + induction Hp as [x y (_ & _ & [H|[[H _]|[H _]]])|x w y _ IH1 _ IH2]; try discriminate H; [apply t_step; exact H|eapply t_trans; eassumption].
      - intros [Sa Hp]. apply clos_trans_t1n in Hp. induction Hp as [x y H|x w y H _ IH].
        + apply t_step. split; [exact Sa|]. split; [exact (Hs _ _ Sa H)|left; exact H].
        + eapply t_trans; [apply t_step; split; [exact Sa|split; [exact (Hs _ _ Sa H)|left; exact H]]|exact (IH (Hs _ _ Sa H))]. }
    rewrite (Q st1), (Q st2).
    + split; intros [Sa Hp]; (split; [apply Sel, Sa|apply (sd_dep _ _ _ _ SD), Hp]).
    + intros x y (p & r & H1 & H2 & H3) Hd. exists p, r. split; [exact H1|]. split; [exact H2|].
      eapply rt_trans; [exact H3|apply rt_step; exact Hd].
    + intros x y (p & r & H1 & H2 & H3) Hd. exists p, r. split; [exact H1|]. split; [exact H2|].
      eapply rt_trans; [exact H3|apply rt_step; exact Hd].
  - apply (K INVALIDATED_BY). intros a b.
    transitivity (clos_trans tid (selected_inval st1 ts filt) a b); [|transitivity (clos_trans tid (selected_inval st2 ts filt) a b)].
    + apply closure_same. intros x y. unfold selected_inval, declares, depends_on. intuition discriminate.
    + apply (sd_inval _ _ _ _ SD).
    + apply closure_same. intros x y. unfold selected_inval, declares, depends_on. intuition discriminate.
  - intros n H. destruct (N1 n H) as (t & St & ->). unfold node_has_job. rewrite C1, C2.
    destruct (T1 t St) as (_ & -> & _). destruct (T2 t (proj1 (Sel t) St)) as (_ & -> & _). apply (sd_job _ _ _ _ SD t St).
  - intros n H. destruct (N1 n H) as (t & St & ->). rewrite (V1 t St), (V2 t (proj1 (Sel t) St)). reflexivity.
  - intros n r H. destruct (N1 n H) as (t & St & ->). unfold node_res. rewrite C1, C2.
    destruct (T1 t St) as (_ & -> & _). destruct (T2 t (proj1 (Sel t) St)) as (_ & -> & _). apply (sd_res _ _ _ _ SD t r St).
  - exact Ht.
Qed.

Lemma lists_same : forall st1 st2 ts filt, same_lists st1 st2 -> same_declarations st1 st2 ts filt.
Proof.
  intros st1 st2 ts filt H.
  assert (D : same_closure (depends_on st1) (depends_on st2)).
  { apply closure_same. intros x y. symmetry. apply (H x). }
  assert (Sel : forall t, selected st1 ts filt t <-> selected st2 ts filt t).
  { intros t. split; intros (p & r & H1 & H2 & H3); exists p, r; (split; [exact H1|]; split; [exact H2|]);
      apply (same_closure_rt _ _ r t D), H3. }
  constructor.
  - intros t _. apply (H t).
  - intros t r _. apply (H t).
  - exact D.
  - apply closure_same. intros x y. destruct (H x) as (_ & H2 & H3 & _).
    unfold selected_after, task_after. rewrite !Sel, H2, H3. tauto.
  - apply closure_same. intros x y. destruct (H x) as (_ & H2 & _ & H4 & _).
    unfold selected_inval. rewrite !Sel, H2, H4. tauto.
Qed.

Lemma get_set st t x u : st_get (store_set st t x) u = if t =? u then x else st_get st u.
Proof. cbn. unfold upd. rewrite Nat.eqb_sym. reflexivity. Qed.

Lemma in_snoc {A} (l : list A) x y : In x (l ++ [y]) <-> In x l \/ x = y.
Proof. rewrite in_app_iff. cbn. intuition. Qed.

(** Declaring what follows already. *)
Lemma declare_again : forall st ts filt a b,
  (clos_trans tid (depends_on st) a b ->
   same_declarations st (store_set st a (add_depends_on b (st_get st a))) ts filt) /\
  (clos_trans tid (selected_after st ts filt) a b ->
   same_declarations st (store_set st a (add_run_after b (st_get st a))) ts filt) /\
  (clos_trans tid (selected_inval st ts filt) a b ->
   same_declarations st (store_set st a (add_invalidated_by b (st_get st a))) ts filt).
Proof.
  intros st ts filt a b. split; [|split].
  - intros Hab. set (st' := store_set st a (add_depends_on b (st_get st a))).
    assert (G : forall t, t_has_job (st_get st' t) = t_has_job (st_get st t) /\ t_resources (st_get st' t) = t_resources (st_get st t) /\
              t_run_after (st_get st' t) = t_run_after (st_get st t) /\ t_invalidated_by (st_get st' t) = t_invalidated_by (st_get st t)).
    { intros t. unfold st'. rewrite get_set. destruct (Nat.eqb_spec a t) as [<-|_]; auto. }
    assert (G' : forall x y, depends_on st' x y <-> depends_on st x y \/ (x = a /\ y = b)).
    { intros x y. unfold depends_on, st'. rewrite get_set. destruct (Nat.eqb_spec a x) as [<-|N].
      - cbn. rewrite in_snoc. tauto.
      - intuition congruence. }
    assert (D : same_closure (depends_on st) (depends_on st')) by (apply (closure_add _ _ a b); assumption).
    assert (Sel : forall t, selected st ts filt t <-> selected st' ts filt t).
    { intros t. split; intros (p & r & H1 & H2 & H3); exists p, r; (split; [exact H1|]; split; [exact H2|]);
        apply (same_closure_rt _ _ r t D), H3. }
    assert (SelD : forall x y, selected st ts filt x -> depends_on st x y -> selected st ts filt y).
    { intros x y (p & r & H1 & H2 & H3) Hd. exists p, r. split; [exact H1|]. split; [exact H2|].
      eapply rt_trans; [exact H3|apply rt_step; exact Hd]. }
    assert (P : forall R : tid -> tid -> Prop, (forall x y, selected st ts filt x -> depends_on st x y -> R x y) ->
              selected st ts filt a -> clos_trans tid R a b).
    { intros R HR. clear -Hab HR SelD. apply clos_trans_t1n in Hab. induction Hab as [a b H|a w b H _ IH]; intros Sa.
      - apply t_step. auto.
      - eapply t_trans; [apply t_step; apply HR; eassumption|]. apply IH, (SelD _ _ Sa H). }
    assert (C : forall R S : tid -> tid -> Prop, (forall x y, selected st ts filt x -> depends_on st x y -> R x y) ->
              (forall x y, S x y <-> R x y \/ (selected st ts filt a /\ x = a /\ y = b)) -> same_closure R S).
    { intros R S HR HS x y. split; induction 1 as [x y H|x w y _ IH1 _ IH2]; try (eapply t_trans; eassumption).
      - apply t_step, HS. left; exact H.
      - apply HS in H. destruct H as [H|(Sa & -> & ->)]; [apply t_step; exact H|exact (P R HR Sa)]. }
    assert (Sb : selected st ts filt a -> selected st ts filt b).
    { intros Sa. clear -Hab SelD Sa. apply clos_trans_t1n in Hab. induction Hab as [a b H|a w b H _ IH].
      - exact (SelD _ _ Sa H).
      - exact (IH (SelD _ _ Sa H)). }
    constructor.
    + intros t _. symmetry. apply G.
    + intros t r _. destruct (G t) as (_ & -> & _). tauto.
    + exact D.
    + apply C.
      * intros x y Sx H. split; [exact Sx|]. split; [exact (SelD _ _ Sx H)|left; exact H].
      * intros x y. unfold selected_after, task_after. rewrite <- !Sel. destruct (G x) as (_ & _ & -> & _).
        specialize (G' x y). unfold depends_on in G'. rewrite G'. split; [intuition (subst; auto)|].
        intros [H|(Sa & -> & ->)]; [tauto|]. specialize (Sb Sa). tauto.
    + apply C.
      * intros x y Sx H. split; [exact Sx|]. split; [exact (SelD _ _ Sx H)|left; exact H].
      * intros x y. unfold selected_inval. rewrite <- !Sel. destruct (G x) as (_ & _ & _ & ->).
        specialize (G' x y). unfold depends_on in G'. rewrite G'. split; [intuition (subst; auto)|].
        intros [H|(Sa & -> & ->)]; [tauto|]. specialize (Sb Sa). tauto.
  - intros Hab. set (st' := store_set st a (add_run_after b (st_get st a))).
    assert (G : forall t, t_has_job (st_get st' t) = t_has_job (st_get st t) /\ t_resources (st_get st' t) = t_resources (st_get st t) /\
              t_depends_on (st_get st' t) = t_depends_on (st_get st t) /\ t_invalidated_by (st_get st' t) = t_invalidated_by (st_get st t)).
    { intros t. unfold st'. rewrite get_set. destruct (Nat.eqb_spec a t) as [<-|_]; auto. }
    assert (G' : forall x y, In y (t_run_after (st_get st' x)) <-> In y (t_run_after (st_get st x)) \/ (x = a /\ y = b)).
    { intros x y. unfold st'. rewrite get_set. destruct (Nat.eqb_spec a x) as [<-|N].
      - cbn. rewrite in_snoc. tauto.
      - intuition congruence. }
    assert (D : same_closure (depends_on st) (depends_on st')).
    { apply closure_same. intros x y. unfold depends_on. destruct (G x) as (_ & _ & -> & _). tauto. }
    assert (Sel : forall t, selected st ts filt t <-> selected st' ts filt t).
    { intros t. split; intros (p & r & H1 & H2 & H3); exists p, r; (split; [exact H1|]; split; [exact H2|]);
        apply (same_closure_rt _ _ r t D), H3. }
    assert (Sab : selected st ts filt a /\ selected st ts filt b).
    { clear -Hab. induction Hab as [x y (H1 & H2 & _)|x w y _ [IH _] _ [_ IH2]]; auto. }
    constructor.
    + intros t _. symmetry. apply G.
    + intros t r _. destruct (G t) as (_ & -> & _). tauto.
    + exact D.
    + apply (closure_add _ _ a b); [|exact Hab]. intros x y. unfold selected_after, task_after. rewrite <- !Sel.
      destruct (G x) as (_ & _ & -> & _). rewrite G'. split; [tauto|]. intros [H|[-> ->]]; tauto.
    + apply closure_same. intros x y. unfold selected_inval. rewrite <- !Sel. destruct (G x) as (_ & _ & -> & ->). tauto.
  - intros Hab. set (st' := store_set st a (add_invalidated_by b (st_get st a))).
    assert (G : forall t, t_has_job (st_get st' t) = t_has_job (st_get st t) /\ t_resources (st_get st' t) = t_resources (st_get st t) /\
              t_depends_on (st_get st' t) = t_depends_on (st_get st t) /\ t_run_after (st_get st' t) = t_run_after (st_get st t)).
    { intros t. unfold st'. rewrite get_set. destruct (Nat.eqb_spec a t) as [<-|_]; auto. }
    assert (G' : forall x y, In y (t_invalidated_by (st_get st' x)) <-> In y (t_invalidated_by (st_get st x)) \/ (x = a /\ y = b)).
    { intros x y. unfold st'. rewrite get_set. destruct (Nat.eqb_spec a x) as [<-|N].
      - cbn. rewrite in_snoc. tauto.
      - intuition congruence. }
    assert (D : same_closure (depends_on st) (depends_on st')).
    { apply closure_same. intros x y. unfold depends_on. destruct (G x) as (_ & _ & -> & _). tauto. }
    assert (Sel : forall t, selected st ts filt t <-> selected st' ts filt t).
    { intros t. split; intros (p & r & H1 & H2 & H3); exists p, r; (split; [exact H1|]; split; [exact H2|]);
        apply (same_closure_rt _ _ r t D), H3. }
    assert (Sab : selected st ts filt a /\ selected st ts filt b).
    { clear -Hab. induction Hab as [x y (H1 & H2 & _)|x w y _ [IH _] _ [_ IH2]]; auto. }
    constructor.
    + intros t _. symmetry. apply G.
    + intros t r _. destruct (G t) as (_ & -> & _). tauto.
    + exact D.
    + apply closure_same. intros x y. unfold selected_after, task_after. rewrite <- !Sel. destruct (G x) as (_ & _ & -> & ->). tauto.
    + apply (closure_add _ _ a b); [|exact Hab]. intros x y. unfold selected_inval. rewrite <- !Sel.
      destruct (G x) as (_ & _ & -> & _). rewrite G'. split; [tauto|]. intros [H|[-> ->]]; tauto.
Qed.

(** The helpers, called again. *)
Lemma held_dec ts t : (exists p, holds ts p t) \/ ~ (exists p, holds ts p t).
Proof.
  destruct (in_dec Nat.eq_dec t (visited ts)) as [H|H]; [left|right].
  - apply visited_holds, H.
  - intros X. apply H, visited_holds, X.
Qed.
Lemma helpers_again : forall st ts t, ordered ts -> owned ts ->
  same_lists (for_each_add_dep st ts t) (for_each_add_dep (for_each_add_dep st ts t) ts t) /\
  same_lists (add_dep_to_each st t ts) (add_dep_to_each (add_dep_to_each st t ts) t ts) /\
  same_lists (run_each_after st ts t) (run_each_after (run_each_after st ts t) ts t) /\
  same_lists (run_after_all_of st t ts) (run_after_all_of (run_after_all_of st t ts) t ts) /\
  same_lists (invalidated_by_all_of st t ts) (invalidated_by_all_of (invalidated_by_all_of st t ts) t ts).
Proof.
  intros st ts t Ho Hw.
  assert (Refl : forall x y : task, x = y -> t_has_job x = t_has_job y /\
    (forall d, In d (t_depends_on x) <-> In d (t_depends_on y)) /\
    (forall d, In d (t_run_after x) <-> In d (t_run_after y)) /\
    (forall d, In d (t_invalidated_by x) <-> In d (t_invalidated_by y)) /\
    (forall r, In r (t_resources x) <-> In r (t_resources y))) by (intros x y ->; intuition).
  split; [|split; [|split; [|split]]]; intros u; cbn zeta.
  - destruct (for_each_add_dep_spec st ts t Ho Hw) as (_ & A1 & A2).
    destruct (for_each_add_dep_spec (for_each_add_dep st ts t) ts t Ho Hw) as (_ & B1 & B2). cbn zeta in *.
    destruct (Nat.eq_dec u t) as [->|N]; [apply Refl; symmetry; apply B2; right; reflexivity|].
    destruct (held_dec ts u) as [[p Hp]|Hn]; [|apply Refl; symmetry; apply B2; left; exact Hn].
    rewrite (B1 u p Hp N), (A1 u p Hp N). cbn. split; [reflexivity|]. split; [intros d; rewrite !in_snoc; tauto|]. split; [tauto|]. split; tauto.
  - destruct (add_dep_to_each_spec st t ts Ho Hw) as (_ & A1 & l & El & _ & _ & A2).
    destruct (add_dep_to_each_spec (add_dep_to_each st t ts) t ts Ho Hw) as (_ & B1 & l' & El' & _ & _ & B2). cbn zeta in *.
    destruct (Nat.eq_dec u t) as [->|N]; [|apply Refl; symmetry; apply B1, N].
    rewrite <- El in El'. subst l'. rewrite B2, A2. cbn. split; [reflexivity|]. split; [intros d; rewrite !in_app_iff; tauto|]. split; [tauto|]. split; tauto.
  - destruct (run_each_after_spec st ts t Ho Hw) as (_ & A1 & A2).
    destruct (run_each_after_spec (run_each_after st ts t) ts t Ho Hw) as (_ & B1 & B2). cbn zeta in *.
    destruct (Nat.eq_dec u t) as [->|N]; [apply Refl; symmetry; apply B2; right; reflexivity|].
    destruct (held_dec ts u) as [[p Hp]|Hn]; [|apply Refl; symmetry; apply B2; left; exact Hn].
    rewrite (B1 u p Hp N), (A1 u p Hp N). cbn. split; [reflexivity|]. split; [tauto|]. split; [intros d; rewrite !in_snoc; tauto|]. split; tauto.
  - destruct (run_after_all_of_spec st t ts Ho Hw) as (_ & A1 & l & El & _ & _ & A2).
    destruct (run_after_all_of_spec (run_after_all_of st t ts) t ts Ho Hw) as (_ & B1 & l' & El' & _ & _ & B2). cbn zeta in *.
    destruct (Nat.eq_dec u t) as [->|N]; [|apply Refl; symmetry; apply B1, N].
    rewrite <- El in El'. subst l'. rewrite B2, A2. cbn. split; [reflexivity|]. split; [tauto|]. split; [intros d; rewrite !in_app_iff; tauto|]. split; tauto.
  - destruct (invalidated_by_all_of_spec st t ts Ho Hw) as (_ & A1 & l & El & _ & _ & A2).
    destruct (invalidated_by_all_of_spec (invalidated_by_all_of st t ts) t ts Ho Hw) as (_ & B1 & l' & El' & _ & _ & B2). cbn zeta in *.
    destruct (Nat.eq_dec u t) as [->|N]; [|apply Refl; symmetry; apply B1, N].
    rewrite <- El in El'. subst l'. rewrite B2, A2. cbn. split; [reflexivity|]. split; [tauto|]. split; [tauto|]. split; [intros d; rewrite !in_app_iff; tauto|]. tauto.
Qed.
