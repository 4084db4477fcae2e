(** Constraints only restrict (C105). *)
From Coq Require Import String Relations Permutation Lia.
From Verif Require Import Model.Common Model.Records Model.Jobs Model.TaskSet Model.Dag
     Model.Sched Model.Exec Model.ExecSet Spec.Graph Spec.Trace Spec.Tasks Spec.Machine Spec.Redundant Spec.Constraints
     Proofs.Sets Proofs.TraceFacts Proofs.ExecInv Proofs.LogFacts Proofs.ExecProps Proofs.ExecProps2
     Proofs.ExecProps3 Proofs.ExecProps4 Proofs.SetExec Proofs.TaskFacts Proofs.MachineFacts Proofs.RedundantFacts Proofs.LocalityFacts.
Open Scope nat_scope.
Open Scope list_scope.

Lemma machine_ids c h : machine c h -> forall n, (In (Begins n) h \/ exists o, In (Ends n o) h) -> In n (node_ids (c_dag c)).
Proof.
  induction 1 as [|h n Hm IH _ (T & _) _ _|h n o Hm IH Hb _]; intros m Hin.
  - destruct Hin as [[]|[o []]].
  - destruct Hin as [Hin|[o Hin]]; apply in_app_iff in Hin; destruct Hin as [Hin|[Hin|[]]].
    + apply IH. left; exact Hin.
    + injection Hin as <-. exact T.
    + apply IH. right; exists o; exact Hin.
    + discriminate Hin.
  - destruct Hin as [Hin|[o' Hin]]; apply in_app_iff in Hin; destruct Hin as [Hin|[Hin|[]]].
    + apply IH. left; exact Hin.
    + discriminate Hin.
    + apply IH. right; exists o'; exact Hin.
    + injection Hin as <- _. apply IH. left; exact Hb.
Qed.

Section Looser.
Variables (f : nid -> nid) (c1 c2 : config).
Hypothesis LO : looser f c1 c2.
Hypothesis W1 : wf_dag (c_dag c1).
Hypothesis W2 : wf_dag (c_dag c2).
Notation ids := (node_ids (c_dag c1)).

Lemma lo_invalidated n : In n ids -> (Invalidated c1 n <-> Invalidated c2 (f n)).
Proof.
  intros Hn. split.
  - intros (m & Hp & log & Hj). apply clos_rt_t in Hp. destruct Hp as [<-|Hp].
    + exists (f n). split; [apply rt_refl|]. exists log. rewrite <- (lo_answer _ _ _ LO n Hn). exact Hj.
    + destruct (clos_in_dag (c_dag c1) INVALIDATED_BY n m W1 Hp) as [_ Hm]. exists (f m).
      split; [apply clos_t_rt, (lo_inval _ _ _ LO n m Hn Hm), Hp|]. exists log. rewrite <- (lo_answer _ _ _ LO m Hm). exact Hj.
  - intros (m & Hp & log & Hj). apply clos_rt_t in Hp. destruct Hp as [<-|Hp].
    + exists n. split; [apply rt_refl|]. exists log. rewrite (lo_answer _ _ _ LO n Hn). exact Hj.
    + destruct (clos_in_dag (c_dag c2) INVALIDATED_BY (f n) m W2 Hp) as [_ Hm].
      destruct (lo_onto _ _ _ LO m Hm) as (m1 & Hm1 & ->). exists m1.
      split; [apply clos_t_rt, (lo_inval _ _ _ LO n m1 Hn Hm1), Hp|]. exists log. rewrite (lo_answer _ _ _ LO m1 Hm1). exact Hj.
Qed.

Definition within (h : list job_step) : Prop :=
  forall n, (In (Begins n) h \/ exists o, In (Ends n o) h) -> In n ids.

Lemma ren_begin h n : within h -> In n ids -> In (Begins (f n)) (map (rename f) h) -> In (Begins n) h.
Proof.
  intros Hw Hn H. apply in_map_iff in H. destruct H as ([m|m o] & E & H); cbn in E; [|discriminate E].
  injection E as E. apply (lo_inj _ _ _ LO) in E; [subst m; exact H| |exact Hn]. apply Hw. left; exact H.
Qed.
Lemma ren_end h n o : within h -> In n ids -> In (Ends (f n) o) (map (rename f) h) -> In (Ends n o) h.
Proof.
  intros Hw Hn H. apply in_map_iff in H. destruct H as ([m|m o'] & E & H); cbn in E; [discriminate E|].
  injection E as E ->. apply (lo_inj _ _ _ LO) in E; [subst m; exact H| |exact Hn]. apply Hw. right; exists o; exact H.
Qed.
Lemma ren_in h j : In j h -> In (rename f j) (map (rename f) h).
Proof. apply in_map. Qed.

Lemma lo_blocked h n : within h -> In n ids ->
  ((exists p, requires (c_dag c1) n p /\ failed_in c1 h p) <->
   (exists p, requires (c_dag c2) (f n) p /\ failed_in c2 (map (rename f) h) p)).
Proof.
  intros Hw Hn. rewrite !blocked_iff. split.
  - intros (b & o & Hp & H1 & H2). assert (Hb : In b ids) by (apply (clos_in_dag (c_dag c1) REQUIRES n b W1 Hp)).
    exists (f b), o. split; [apply (lo_req _ _ _ LO n b Hn Hb), Hp|]. split; [exact (ren_in h (Ends b o) H1)|exact H2].
  - intros (b & o & Hp & H1 & H2). destruct (clos_in_dag (c_dag c2) REQUIRES (f n) b W2 Hp) as [_ Hb].
    destruct (lo_onto _ _ _ LO b Hb) as (b1 & Hb1 & ->). exists b1, o.
    split; [apply (lo_req _ _ _ LO n b1 Hn Hb1), Hp|]. split; [apply ren_end; assumption|exact H2].
Qed.

Lemma lo_settled h n : within h -> In n ids -> settled c1 h n -> settled c2 (map (rename f) h) (f n).
Proof.
  intros Hw Hn [[o H]|[H|H]].
  - left. exists o. exact (ren_in h (Ends n o) H).
  - right; left. rewrite <- (lo_invalidated n Hn). exact H.
  - right; right. apply (lo_blocked h n Hw Hn), H.
Qed.

Lemma lo_active : forall h, within h -> forall l, incl l ids ->
  fold_left follow (map (rename f) h) (map f l) = map f (fold_left follow h l) /\ incl (fold_left follow h l) ids.
Proof.
  induction h as [|j h IH]; intros Hw l Hl; [split; [reflexivity|exact Hl]|]. cbn [map fold_left].
  assert (Hw' : within h).
  { intros n [H|[o H]]; apply Hw; [left; right; exact H|right; exists o; right; exact H]. }
  destruct j as [n|n o]; cbn [rename follow].
  - apply (IH Hw' (n :: l)). intros x [<-|Hx]; [apply Hw; left; left; reflexivity|exact (Hl x Hx)].
  - assert (Hn : In n ids) by (apply Hw; right; exists o; left; reflexivity).
    assert (E : set_erase (f n) (map f l) = map f (set_erase n l)).
    { clear IH Hw Hw'. unfold set_erase. induction l as [|x l IHl]; [reflexivity|]. cbn [map filter].
      assert (Hl' : incl l ids) by (intros y Hy; apply Hl; right; exact Hy).
      assert (Eb : (x =? n) = (f x =? f n)).
      { destruct (Nat.eqb_spec x n) as [->|N]; [symmetry; apply Nat.eqb_refl|]. symmetry. apply Nat.eqb_neq. intros E. apply N.
        apply (lo_inj _ _ _ LO); [apply Hl; left; reflexivity|exact Hn|exact E]. }
      rewrite Eb. destruct (f x =? f n); cbn [negb map]; rewrite (IHl Hl'); reflexivity. }
    rewrite E. apply (IH Hw'). intros x Hx. unfold set_erase in Hx. apply filter_In in Hx. apply Hl, Hx.
Qed.

Lemma lo_machine h : machine c1 h -> machine c2 (map (rename f) h).
Proof.
  induction 1 as [|h n Hm IH [Hac Hex] (T1 & T2 & T3 & T4 & T5) Hs Hl|h n o Hm IH H1 H2]; [constructor| |].
  - assert (Hw : within h) by (exact (machine_ids c1 h Hm)).
    destruct (lo_active h Hw [] (incl_nil_l _)) as [EA IA]. change (map f []) with (@nil nid) in EA. fold (active h) in EA, IA.
    change (fold_left follow (map (rename f) h) []) with (active (map (rename f) h)) in EA.
    rewrite map_app. cbn [map rename]. apply machine_begin.
    + exact IH.
    + split.
      * intros [x Hx]. assert (Hx2 : In x (node_ids (c_dag c2))) by (apply (clos_in_dag (c_dag c2) AFTER x x W2 Hx)).
        destruct (lo_onto _ _ _ LO x Hx2) as (y & Hy & ->). apply Hac. exists y. apply (lo_after _ _ _ LO y y Hy Hy Hx).
      * intros m Hm2. destruct (lo_onto _ _ _ LO m Hm2) as (y & Hy & ->).
        rewrite <- (lo_job _ _ _ LO y Hy), <- (lo_answer _ _ _ LO y Hy). exact (Hex y Hy).
    + split; [exact (lo_into _ _ _ LO n T1)|]. split; [intros H; apply T2; exact (ren_begin h n Hw T1 H)|].
      split; [apply (lo_invalidated n T1), T3|]. split.
      * intros p Hp Hf. destruct (proj2 (lo_blocked h n Hw T1) (ex_intro _ p (conj Hp Hf))) as (q & Hq & Hf'). exact (T4 q Hq Hf').
      * intros m Hp. destruct (clos_in_dag (c_dag c2) AFTER (f n) m W2 Hp) as [_ Hm2].
        destruct (lo_onto _ _ _ LO m Hm2) as (y & Hy & ->). apply (lo_settled h y Hw Hy).
        apply T5. apply (lo_after _ _ _ LO n y T1 Hy Hp).
    + intros m Hin. rewrite EA in Hin. apply in_map_iff in Hin. destruct Hin as (y & <- & Hin). intros r Hr Hr'.
      apply (Hs y Hin r); [apply (lo_res _ _ _ LO n r T1 Hr)|apply (lo_res _ _ _ LO y r (IA y Hin) Hr')].
    + rewrite EA, map_length. pose proof (lo_threads _ _ _ LO). lia.
  - assert (Hw : within h) by (exact (machine_ids c1 h Hm)).
    assert (Hn : In n ids) by (apply Hw; left; exact H1).
    rewrite map_app. cbn [map rename]. apply machine_end; [exact IH|exact (ren_in h (Begins n) H1)|].
    intros o' H. apply (H2 o'). exact (ren_end h n o' Hw Hn H).
Qed.
End Looser.

Lemma only_restrict : forall f c1 c2 z s,
  wf_dag (c_dag c1) -> requires_after (c_dag c1) -> wf_dag (c_dag c2) -> requires_after (c_dag c2) ->
  looser f c1 c2 -> plenty c2 -> reachable c1 z s ->
  exists s2, reachable c2 z s2 /\ jobs (trace s2) = map (rename f) (jobs (trace s)).
Proof.
  intros f c1 c2 z s W1 R1 W2 R2 LO HP HR. apply (machine_complete c2 z _ W2 R2 HP).
  apply (lo_machine f c1 c2 LO W1 W2). exact (machine_sound c1 z s W1 R1 HR).
Qed.

Lemma lo_fate : forall f c1 c2 z1 s1 z2 s2,
  wf_dag (c_dag c1) -> requires_after (c_dag c1) -> wf_dag (c_dag c2) -> requires_after (c_dag c2) ->
  looser f c1 c2 -> reachable c1 z1 s1 -> reachable c2 z2 s2 ->
  (forall n o1 o2, In (EEnd n o1) (trace s1) -> In (EEnd (f n) o2) (trace s2) -> o1 = o2) ->
  forall r1 r2, In r1 (records (trace s1)) -> In r2 (records (trace s2)) -> r_node r2 = f (r_node r1) ->
  r_status r1 = r_status r2 /\ r_retcode r1 = r_retcode r2 /\ r_output r1 = r_output r2.
Proof.
  intros f c1 c2 z1 s1 z2 s2 W1 RA1 W2 RA2 SM HR1 HR2 Ho.
  pose proof (r_log c1 z1 s1 W1 HR1) as L1.
  assert (G : forall k r1, (exists a er x l, s_log s1 = a ++ EAfterRun er r1 x :: l /\ List.length l < k) ->
     forall r2, In r2 (records (trace s2)) -> r_node r2 = f (r_node r1) ->
     r_status r1 = r_status r2 /\ r_retcode r1 = r_retcode r2 /\ r_output r1 = r_output r2).
  { induction k as [|k IH]; intros r1 [a [er [x [l [El Hl]]]]] r2 Hr2 En; [lia|].
    assert (Hr1 : In r1 (records (trace s1))).
    { rewrite <- recs_trace. apply recs_In. exists er, x. rewrite El. apply in_app_iff. right; left; reflexivity. }
    assert (Hpos : forall rb, clos_trans nid (requires (c_dag c1)) (r_node r1) (r_node rb) -> In rb (records (trace s1)) ->
              exists a er x l, s_log s1 = a ++ EAfterRun er rb x :: l /\ List.length l < k).
    { intros rb Hp Hrb.
      destruct (req_older c1 z1 s1 W1 RA1 HR1 r1 l (ex_intro _ a (ex_intro _ er (ex_intro _ x El))) (r_node rb) Hp rb Hrb eq_refl)
        as (a' & er' & x' & l' & E' & H'). exists a', er', x', l'. split; [exact E'|lia]. }
    assert (Hn : In (r_node r1) (node_ids (c_dag c1))) by (apply (record_facts c1 z1 s1 W1 HR1 r1 Hr1)).
    assert (HB : bad_requirement c1 (trace s1) (r_node r1) <-> bad_requirement c2 (trace s2) (r_node r2)).
    { rewrite (bad_iff c1 z1 s1 W1 RA1 HR1 r1 Hr1), (bad_iff c2 z2 s2 W2 RA2 HR2 r2 Hr2). rewrite En. split.
      - intros (rb & H1 & H2 & H3). assert (Hb : In (r_node rb) (node_ids (c_dag c1))) by (apply (record_facts c1 z1 s1 W1 HR1 rb H1)).
        pose proof (proj1 (lo_req _ _ _ SM _ _ Hn Hb) H2) as H2'.
        destruct (req_recorded c2 z2 s2 W2 RA2 HR2 (f (r_node r1)) (f (r_node rb))) as [rb2 [G1 G2]]; [exists r2; auto|exact H2'|].
        exists rb2. split; [exact G1|]. rewrite G2. split; [exact H2'|].
        destruct (IH rb (Hpos rb H2 H1) rb2 G1 G2) as [Es _]. congruence.
      - intros (rb & H1 & H2 & H3). assert (Hb : In (r_node rb) (node_ids (c_dag c2))) by (apply (record_facts c2 z2 s2 W2 HR2 rb H1)).
        destruct (lo_onto _ _ _ SM _ Hb) as (m & Hm & Em). rewrite Em in H2. pose proof (proj2 (lo_req _ _ _ SM _ _ Hn Hm) H2) as H2'.
        destruct (req_recorded c1 z1 s1 W1 RA1 HR1 (r_node r1) m) as [rb1 [G1 G2]]; [exists r1; auto|exact H2'|].
        exists rb1. split; [exact G1|]. rewrite G2. split; [exact H2'|]. rewrite <- G2 in H2'.
        destruct (IH rb1 (Hpos rb1 H2' G1) rb H1) as [Es _]; congruence. }
    destruct (status_rule c1 z1 s1 r1 W1 RA1 HR1 Hr1) as [A1 [A2 [A3 A4]]].
    destruct (status_rule c2 z2 s2 r2 W2 RA2 HR2 Hr2) as [B1 [B2 [B3 B4]]].
    cbn zeta in *. rewrite <- HB in B1, B2. rewrite En in B2, B3. rewrite <- (lo_invalidated f c1 c2 SM W1 W2 _ Hn) in B2.
    assert (Hran : forall (P : Prop), (r_status r1 = OK \/ r_status r1 = FAIL) -> (r_status r2 = OK \/ r_status r2 = FAIL) ->
       r_status r1 = r_status r2 /\ r_retcode r1 = r_retcode r2 /\ r_output r1 = r_output r2).
    { intros _ H1 H2. destruct (A3 H1) as [o1 [X1 [X2 [X3 X4]]]]. destruct (B3 H2) as [o2 [Y1 [Y2 [Y3 Y4]]]].
      rewrite (Ho _ _ _ X1 Y1) in X2, X3.
      assert (Er : r_retcode r1 = r_retcode r2) by congruence. split; [|split; [exact Er|congruence]].
      rewrite Er in X4. destruct H1 as [H1|H1], H2 as [H2|H2]; rewrite H1, H2 in *; try reflexivity.
      - assert (C : OK = FAIL) by (apply X4, Y4; reflexivity). discriminate C.
      - assert (C : OK = FAIL) by (apply Y4, X4; reflexivity). discriminate C. }
    assert (Hzero : r_status r1 = r_status r2 -> (r_status r1 = DEPF \/ r_status r1 = SKIP) ->
       r_status r1 = r_status r2 /\ r_retcode r1 = r_retcode r2 /\ r_output r1 = r_output r2).
    { intros Es H. destruct (A4 H) as [X1 X2]. rewrite Es in H. destruct (B4 H) as [Y1 Y2]. rewrite X1, X2, Y1, Y2. auto. }
    clear IH Hpos El L1.
    destruct (r_status r1) eqn:S1, (r_status r2) eqn:S2; try (apply Hzero; [reflexivity|auto]; fail);
      try (apply (Hran True); auto; fail); exfalso.
    all: try (assert (C : OK = DEPF) by tauto; discriminate C).
    all: try (assert (C : FAIL = DEPF) by tauto; discriminate C).
    all: try (assert (C : SKIP = DEPF) by tauto; discriminate C).
    all: try (assert (C : OK = SKIP) by tauto; discriminate C).
    all: try (assert (C : FAIL = SKIP) by tauto; discriminate C).
    all: tauto. }
  intros r1 r2 Hr1 Hr2 En. pose proof Hr1 as Hr1'. rewrite <- recs_trace in Hr1'.
  destruct (rec_at c1 _ _ L1 Hr1') as [a [er [x [l [El [He _]]]]]].
  apply (G (S (List.length l)) r1); [|exact Hr2|exact En]. exists a, er, x, l. auto.
Qed.

Lemma rename_id h : map (rename (fun n => n)) h = h.
Proof. rewrite <- (map_id h) at 2. apply map_ext. intros [n|n o]; reflexivity. Qed.

Lemma enough_threads : forall c k z s,
  wf_dag (c_dag c) -> requires_after (c_dag c) ->
  c_threads c <= k -> List.length (node_ids (c_dag c)) <= k -> reachable c z s ->
  exists s2, reachable (without_resources (with_threads c k)) z s2 /\ jobs (trace s2) = jobs (trace s).
Proof.
  intros c k z s W R Hk Hl HR.
  destruct (only_restrict (fun n => n) c (without_resources (with_threads c k)) z s W R W R) as (s2 & H1 & H2).
  - constructor; cbn [c_dag c_inval c_threads without_resources with_threads]; auto; try tauto.
    + intros m Hm. exists m. auto.
    + intros n r _ [].
    + lia.
  - split; [intros a b _ _ _ r []|exact Hl].
  - exact HR.
  - exists s2. split; [exact H1|]. rewrite H2. apply rename_id.
Qed.

(** * Task sets *)

(** [f] takes the node of a task in one graph to its node in another one. *)
Lemma sets_looser st1 st2 ts1 filt1 iv1 addr1 c1 ts2 filt2 iv2 addr2 c2 :
  execution_of st1 ts1 filt1 iv1 addr1 c1 -> execution_of st2 ts2 filt2 iv2 addr2 c2 ->
  (forall t, selected st1 ts1 filt1 t <-> selected st2 ts2 filt2 t) ->
  (forall t, selected st1 ts1 filt1 t -> iv1 t = iv2 t /\ t_has_job (st_get st1 t) = t_has_job (st_get st2 t) /\
     (forall d, In d (t_depends_on (st_get st1 t)) <-> In d (t_depends_on (st_get st2 t))) /\
     (forall d, In d (t_run_after (st_get st2 t)) -> In d (t_run_after (st_get st1 t))) /\
     (forall d, In d (t_invalidated_by (st_get st1 t)) <-> In d (t_invalidated_by (st_get st2 t))) /\
     (forall r, In r (t_resources (st_get st2 t)) -> In r (t_resources (st_get st1 t)))) ->
  Nat.max 1 (c_threads c1) <= Nat.max 1 (c_threads c2) ->
  looser (fun n => addr2 (node_task (c_dag c1) n)) c1 c2 /\
  (forall n, In n (node_ids (c_dag c1)) -> node_task (c_dag c2) (addr2 (node_task (c_dag c1) n)) = node_task (c_dag c1) n).
Proof.
  intros X1 X2 Sel H Ht.
  destruct (exec_facts _ _ _ _ _ _ X1) as (W1 & _ & _ & T1 & N1 & I1 & E1 & C1 & V1).
  destruct (exec_facts _ _ _ _ _ _ X2) as (W2 & _ & _ & T2 & N2 & I2 & E2 & C2 & V2).
  set (f := fun n => addr2 (node_task (c_dag c1) n)).
  assert (Ff : forall t, selected st1 ts1 filt1 t -> f (addr1 t) = addr2 t).
  { intros t St. unfold f. destruct (T1 t St) as (_ & -> & _). reflexivity. }
  assert (Fwd : forall k a b, k <> AFTER -> clos_trans nid (of_kind c1 k) a b -> clos_trans nid (of_kind c2 k) (f a) (f b)).
  { intros k a b Hk Hp. induction Hp as [a b He|a b x _ IH1 _ IH2]; [|eapply t_trans; eassumption]. apply E1 in He.
    destruct He as (x & y & Sx & Sy & -> & -> & D). rewrite (Ff x Sx), (Ff y Sy). apply t_step. apply E2. exists x, y.
    split; [apply Sel, Sx|]. split; [apply Sel, Sy|]. split; [reflexivity|]. split; [reflexivity|].
    destruct (H x Sx) as (_ & _ & D1 & _ & D3 & _). destruct D as [D|[[-> _]|[-> D]]]; [left; apply D1, D|congruence|right; right; split; [reflexivity|apply D3, D]]. }
  assert (Bwd : forall k a2 b2, clos_trans nid (of_kind c2 k) a2 b2 -> exists x y, selected st1 ts1 filt1 x /\ selected st1 ts1 filt1 y /\
              a2 = addr2 x /\ b2 = addr2 y /\ clos_trans nid (of_kind c1 k) (addr1 x) (addr1 y)).
  { intros k a2 b2 Hp. apply clos_trans_t1n in Hp. induction Hp as [a b He|a m b He _ IH].
    - apply E2 in He. destruct He as (x & y & Sx & Sy & -> & -> & D). apply Sel in Sx. apply Sel in Sy. exists x, y.
      split; [exact Sx|]. split; [exact Sy|]. split; [reflexivity|]. split; [reflexivity|]. apply t_step. apply E1. exists x, y.
      split; [exact Sx|]. split; [exact Sy|]. split; [reflexivity|]. split; [reflexivity|].
      destruct (H x Sx) as (_ & _ & D1 & D2 & D3 & _).
      destruct D as [D|[[-> D]|[-> D]]]; [left; apply D1, D|right; left; split; [reflexivity|apply D2, D]|right; right; split; [reflexivity|apply D3, D]].
    - destruct IH as (x & y & Sx & Sy & -> & -> & IH). apply E2 in He. destruct He as (u & v & Su & Sv & -> & Ev & D).
      apply Sel in Su. apply (I2 x v (proj1 (Sel x) Sx) Sv) in Ev. subst v. exists u, y.
      split; [exact Su|]. split; [exact Sy|]. split; [reflexivity|]. split; [reflexivity|].
      eapply t_trans; [|exact IH]. apply t_step. apply E1. exists u, x.
      split; [exact Su|]. split; [exact Sx|]. split; [reflexivity|]. split; [reflexivity|].
      destruct (H u Su) as (_ & _ & D1 & D2 & D3 & _).
      destruct D as [D|[[-> D]|[-> D]]]; [left; apply D1, D|right; left; split; [reflexivity|apply D2, D]|right; right; split; [reflexivity|apply D3, D]]. }
  assert (Bwd' : forall k a b, In a (node_ids (c_dag c1)) -> In b (node_ids (c_dag c1)) -> clos_trans nid (of_kind c2 k) (f a) (f b) ->
              clos_trans nid (of_kind c1 k) a b).
  { intros k a b Ha Hb Hp. destruct (N1 a Ha) as (u & Su & ->). destruct (N1 b Hb) as (v & Sv & ->).
    rewrite (Ff u Su), (Ff v Sv) in Hp. destruct (Bwd k _ _ Hp) as (x & y & Sx & Sy & Ex & Ey & G).
    apply (I2 u x (proj1 (Sel u) Su) (proj1 (Sel x) Sx)) in Ex. apply (I2 v y (proj1 (Sel v) Sv) (proj1 (Sel y) Sy)) in Ey.
    subst x y. exact G. }
  split.
  - constructor.
    + intros n Hn. destruct (N1 n Hn) as (t & St & ->). fold (f (addr1 t)). rewrite (Ff t St). apply T2, Sel, St.
    + intros m Hm. destruct (N2 m Hm) as (t & St & ->). apply Sel in St. exists (addr1 t). split; [apply T1, St|].
      fold (f (addr1 t)). rewrite (Ff t St). reflexivity.
    + intros a b Ha Hb E. destruct (N1 a Ha) as (u & Su & ->). destruct (N1 b Hb) as (v & Sv & ->).
      fold (f (addr1 u)) (f (addr1 v)) in E. rewrite (Ff u Su), (Ff v Sv) in E.
      apply (I2 u v (proj1 (Sel u) Su) (proj1 (Sel v) Sv)) in E. subst v. reflexivity.
    + intros a b Ha Hb Hp. exact (Bwd' AFTER a b Ha Hb Hp).
    + intros a b Ha Hb. split; [apply (Fwd REQUIRES); discriminate|exact (Bwd' REQUIRES a b Ha Hb)].
    + intros a b Ha Hb. split; [apply (Fwd INVALIDATED_BY); discriminate|exact (Bwd' INVALIDATED_BY a b Ha Hb)].
    + intros n Hn. destruct (N1 n Hn) as (t & St & ->). change (addr2 (node_task (c_dag c1) (addr1 t))) with (f (addr1 t)). rewrite (Ff t St). unfold node_has_job. rewrite C1, C2.
      destruct (T1 t St) as (_ & -> & _). destruct (T2 t (proj1 (Sel t) St)) as (_ & -> & _). apply (H t St).
    + intros n Hn. destruct (N1 n Hn) as (t & St & ->). change (addr2 (node_task (c_dag c1) (addr1 t))) with (f (addr1 t)). rewrite (Ff t St).
      rewrite (V1 t St), (V2 t (proj1 (Sel t) St)). apply (H t St).
    + intros n r Hn. destruct (N1 n Hn) as (t & St & ->). change (addr2 (node_task (c_dag c1) (addr1 t))) with (f (addr1 t)). rewrite (Ff t St). unfold node_res. rewrite C1, C2.
      destruct (T1 t St) as (_ & -> & _). destruct (T2 t (proj1 (Sel t) St)) as (_ & -> & _). apply (H t St).
    + exact Ht.
  - intros n Hn. destruct (N1 n Hn) as (t & St & ->). destruct (T1 t St) as (_ & -> & _).
    apply (T2 t (proj1 (Sel t) St)).
Qed.

Lemma sets_restrict : forall st1 st2 ts1 filt1 iv1 addr1 c1 ts2 filt2 iv2 addr2 c2 z s,
  execution_of st1 ts1 filt1 iv1 addr1 c1 -> execution_of st2 ts2 filt2 iv2 addr2 c2 ->
  (forall t, selected st1 ts1 filt1 t <-> selected st2 ts2 filt2 t) ->
  (forall t, selected st1 ts1 filt1 t -> iv1 t = iv2 t /\ t_has_job (st_get st1 t) = t_has_job (st_get st2 t) /\
     (forall d, In d (t_depends_on (st_get st1 t)) <-> In d (t_depends_on (st_get st2 t))) /\
     (forall d, In d (t_run_after (st_get st2 t)) -> In d (t_run_after (st_get st1 t))) /\
     (forall d, In d (t_invalidated_by (st_get st1 t)) <-> In d (t_invalidated_by (st_get st2 t))) /\
     (forall r, In r (t_resources (st_get st2 t)) -> In r (t_resources (st_get st1 t)))) ->
  Nat.max 1 (c_threads c1) <= Nat.max 1 (c_threads c2) -> plenty c2 -> reachable c1 z s ->
  exists s2, reachable c2 z s2 /\ task_jobs c2 (trace s2) = task_jobs c1 (trace s).
Proof.
  intros st1 st2 ts1 filt1 iv1 addr1 c1 ts2 filt2 iv2 addr2 c2 z s X1 X2 Sel H Ht HP HR.
  destruct (sets_looser st1 st2 ts1 filt1 iv1 addr1 c1 ts2 filt2 iv2 addr2 c2 X1 X2 Sel H Ht) as [LO Hf].
  destruct (exec_facts _ _ _ _ _ _ X1) as (W1 & R1 & _). destruct (exec_facts _ _ _ _ _ _ X2) as (W2 & R2 & _).
  destruct (only_restrict _ c1 c2 z s W1 R1 W2 R2 LO HP HR) as (s2 & HR2 & E).
  exists s2. split; [exact HR2|]. unfold task_jobs. rewrite E, map_map. apply map_ext_in.
  pose proof (machine_ids c1 _ (machine_sound c1 z s W1 R1 HR)) as Hids.
  intros [n|n o] Hin; cbn [rename]; rewrite Hf; try reflexivity; apply Hids; [left; exact Hin|right; exists o; exact Hin].
Qed.

(** The same task set, its nodes in other places and its maps iterated in another order. *)
Lemma placement : forall st ts filt iv addr1 addr2 c1 c2 z h,
  execution_of st ts filt iv addr1 c1 -> execution_of st ts filt iv addr2 c2 -> c_threads c1 = c_threads c2 ->
  plenty c1 ->
  ((exists s, reachable c1 z s /\ task_jobs c1 (trace s) = h) <-> (exists s, reachable c2 z s /\ task_jobs c2 (trace s) = h)).
Proof.
  intros st ts filt iv addr1 addr2 c1 c2 z h X1 X2 Ht HP.
  assert (HP2 : plenty c2).
  { destruct (exec_facts _ _ _ _ _ _ X1) as (W1 & _ & _ & T1 & N1 & I1 & E1 & C1 & V1).
    destruct (exec_facts _ _ _ _ _ _ X2) as (W2 & _ & _ & T2 & N2 & I2 & E2 & C2 & V2). destruct HP as [P1 P2]. split.
    - intros a b Ha Hb Hab. destruct (N2 a Ha) as (x & Sx & ->). destruct (N2 b Hb) as (y & Sy & ->).
      specialize (P1 (addr1 x) (addr1 y) (proj1 (T1 x Sx)) (proj1 (T1 y Sy))). unfold no_shared_resource, node_res in *.
      rewrite C1 in P1. rewrite C2. destruct (T1 x Sx) as (_ & Ex1 & _). destruct (T1 y Sy) as (_ & Ey1 & _).
      destruct (T2 x Sx) as (_ & Ex2 & _). destruct (T2 y Sy) as (_ & Ey2 & _). rewrite Ex1, Ey1 in P1. rewrite Ex2, Ey2. apply P1.
      intros E. apply (I1 x y Sx Sy) in E. congruence.
    - rewrite <- Ht. etransitivity; [|exact P2].
      assert (Hlen : List.length (node_ids (c_dag c2)) = List.length (map (fun n => addr1 (node_task (c_dag c2) n)) (node_ids (c_dag c2)))) by (rewrite map_length; reflexivity).
      rewrite Hlen. apply NoDup_incl_length.
      + destruct W2 as [ND _]. revert ND N2. generalize (node_ids (c_dag c2)) as l. intros l ND Hl.
        assert (Hl' : forall n, In n l -> exists t, selected st ts filt t /\ n = addr2 t) by exact Hl. clear Hl.
        induction ND as [|n l Hn ND IH]; [constructor|]. cbn [map]. constructor; [|apply IH; intros m Hm; apply Hl'; right; exact Hm].
        intros Hin. apply in_map_iff in Hin. destruct Hin as (m & Em & Hm). apply Hn.
        destruct (Hl' n (or_introl eq_refl)) as (x & Sx & ->). destruct (Hl' m (or_intror Hm)) as (y & Sy & ->).
        destruct (T2 x Sx) as (_ & Ex2 & _). destruct (T2 y Sy) as (_ & Ey2 & _). rewrite Ex2, Ey2 in Em.
        apply (I1 y x Sy Sx) in Em. subst y. exact Hm.
      + intros n Hn. apply in_map_iff in Hn. destruct Hn as (m & <- & Hm). destruct (N2 m Hm) as (x & Sx & ->).
        destruct (T2 x Sx) as (_ & -> & _). apply T1, Sx. }
  split; intros (s & HR & <-); eapply sets_restrict.
  - exact X1.
  - exact X2.
  - intros t. tauto.
  - intros t _. repeat split; auto.
  - rewrite Ht. lia.
  - exact HP2.
  - exact HR.
  - exact X2.
  - exact X1.
  - intros t. tauto.
  - intros t _. repeat split; auto.
  - rewrite Ht. lia.
  - exact HP.
  - exact HR.
Qed.

Lemma fewer_selected st1 st2 ts filt t : fewer st1 st2 -> (selected st1 ts filt t <-> selected st2 ts filt t).
Proof.
  intros F. assert (E : forall x y, clos_refl_trans tid (depends_on st1) x y <-> clos_refl_trans tid (depends_on st2) x y).
  { intros x y. split; induction 1 as [x y H|x|x w y _ I1 _ I2]; try apply rt_refl; try (eapply rt_trans; eassumption);
      apply rt_step; destruct (F x) as (_ & D & _); apply D, H. }
  split; intros (p & r & H1 & H2 & H3); exists p, r; (split; [exact H1|]; split; [exact H2|]); apply E, H3.
Qed.

Lemma fewer_restrict : forall st1 st2 ts filt iv addr1 addr2 c1 c2 z s,
  execution_of st1 ts filt iv addr1 c1 -> execution_of st2 ts filt iv addr2 c2 -> fewer st1 st2 ->
  Nat.max 1 (c_threads c1) <= Nat.max 1 (c_threads c2) -> plenty c2 -> reachable c1 z s ->
  exists s2, reachable c2 z s2 /\ task_jobs c2 (trace s2) = task_jobs c1 (trace s).
Proof.
  intros st1 st2 ts filt iv addr1 addr2 c1 c2 z s X1 X2 F Ht HP HR.
  apply (sets_restrict st1 st2 ts filt iv addr1 c1 ts filt iv addr2 c2 z s X1 X2); [| |exact Ht|exact HP|exact HR].
  - intros t. apply fewer_selected, F.
  - intros t _. split; [reflexivity|]. exact (F t).
Qed.

Lemma fewer_fate : forall st1 st2 ts filt iv addr1 addr2 c1 c2 z1 z2 s1 s2,
  execution_of st1 ts filt iv addr1 c1 -> execution_of st2 ts filt iv addr2 c2 -> fewer st1 st2 ->
  Nat.max 1 (c_threads c1) <= Nat.max 1 (c_threads c2) -> reachable c1 z1 s1 -> reachable c2 z2 s2 ->
  (forall n1 n2 o1 o2, In (EEnd n1 o1) (trace s1) -> In (EEnd n2 o2) (trace s2) ->
     node_task (c_dag c1) n1 = node_task (c_dag c2) n2 -> o1 = o2) ->
  forall r1 r2, In r1 (records (trace s1)) -> In r2 (records (trace s2)) -> r_task r1 = r_task r2 ->
  r_status r1 = r_status r2 /\ r_retcode r1 = r_retcode r2 /\ r_output r1 = r_output r2.
Proof.
  intros st1 st2 ts filt iv addr1 addr2 c1 c2 z1 z2 s1 s2 X1 X2 F Ht HR1 HR2 Ho r1 r2 H1 H2 Et.
  destruct (sets_looser st1 st2 ts filt iv addr1 c1 ts filt iv addr2 c2 X1 X2) as [LO Hf].
  { intros t. apply fewer_selected, F. } { intros t _. split; [reflexivity|exact (F t)]. } { exact Ht. }
  destruct (exec_facts _ _ _ _ _ _ X1) as (W1 & RA1 & _ & T1 & N1 & _).
  destruct (exec_facts _ _ _ _ _ _ X2) as (W2 & RA2 & _ & T2 & N2 & I2 & _).
  destruct (record_task c1 z1 s1 r1 W1 HR1 H1) as (K1 & Q1 & _). destruct (record_task c2 z2 s2 r2 W2 HR2 H2) as (K2 & Q2 & _).
  assert (En : r_node r2 = addr2 (node_task (c_dag c1) (r_node r1))).
  { destruct (N2 _ K2) as (t & St & E). rewrite E. rewrite Q1, Q2, E in Et. destruct (T2 t St) as (_ & Et2 & _). congruence. }
  apply (lo_fate _ c1 c2 z1 s1 z2 s2 W1 RA1 W2 RA2 LO HR1 HR2) with (2 := H1) (3 := H2) (4 := En).
  intros n o1 o2 G1 G2. apply (Ho n _ o1 o2 G1 G2). symmetry. apply Hf.
  apply trace_in in G1. pose proof (machine_ids c1 _ (machine_sound c1 z1 s1 W1 RA1 HR1)) as Hids. apply Hids. right. exists o1.
  apply J_end. exact G1.
Qed.

Lemma one_less : forall st a d r,
  fewer (store_set st a (add_run_after d (st_get st a))) st /\ fewer (store_set st a (add_resource r (st_get st a))) st.
Proof.
  intros st a d r. split; intros t; cbn zeta; unfold store_set; cbn [st_get]; unfold upd;
    destruct (t =? a) eqn:E; try (apply Nat.eqb_eq in E; subst t); repeat split; intros; auto; cbn; apply in_app_iff; auto.
Qed.
