(** Two executions of the same graph report the same. *)
From Coq Require Import String Ascii Lia Permutation.
From Verif Require Import Model.Common Model.Records Model.Jobs Model.TaskSet Model.Dag Model.Sched Model.Exec
     Model.ExecSet Model.Text Model.Format Model.Report
     Spec.Graph Spec.Trace Spec.Tasks Spec.Xml Spec.Report Spec.Names Spec.SameReport
     Proofs.Sets Proofs.TaskFacts Proofs.BuildProps Proofs.SetExec Proofs.LocalityFacts Proofs.NameSets Proofs.LogFacts Proofs.ExecProps Proofs.ExecProps2 Proofs.Determinism
     Proofs.FormatFacts Proofs.ReportFacts.
Open Scope string_scope.
Open Scope nat_scope.
Open Scope list_scope.

(** Lists with the same keys, without duplicates, whose items with equal keys are related. *)
Lemma same_by_key {A} (key : A -> nat) (R : A -> A -> Prop) : forall l2 l1,
  Permutation (map key l1) (map key l2) ->
  (forall a b, In a l1 -> In b l2 -> key a = key b -> R a b) ->
  same_in_some_order R l1 l2.
Proof.
  induction l2 as [|b l2 IH]; intros l1 P H; cbn [map] in P.
  - apply Permutation_sym, Permutation_nil, map_eq_nil in P. subst l1. exists []. split; [constructor|constructor].
  - assert (Hin : In (key b) (map key l1)) by (eapply Permutation_in; [apply Permutation_sym; exact P|left; reflexivity]).
    apply in_map_iff in Hin. destruct Hin as (a & Ea & Ha). apply in_split in Ha. destruct Ha as (p & q & ->).
    assert (P' : Permutation (map key (p ++ q)) (map key l2)).
    { apply Permutation_cons_inv with (a := key b). eapply Permutation_trans; [|exact P].
      rewrite !map_app. cbn [map]. rewrite Ea. apply Permutation_middle. }
    destruct (IH (p ++ q) P') as (l & L1 & L2).
    { intros x y Hx Hy E. apply H; [|right; exact Hy|exact E].
      apply in_app_iff in Hx. apply in_app_iff. destruct Hx; [left|right; right]; assumption. }
    exists (a :: l). split.
    + eapply Permutation_trans; [apply Permutation_sym, Permutation_middle|]. now constructor.
    + constructor; [|exact L2]. apply H; [apply in_app_iff; right; left; reflexivity|left; reflexivity|exact Ea].
Qed.

Lemma in_some_order_map {A B} (f g : A -> B) (R : A -> A -> Prop) (Q : B -> B -> Prop) l1 l2 :
  same_in_some_order R l1 l2 -> (forall a b, R a b -> Q (f a) (g b)) ->
  same_in_some_order Q (map f l1) (map g l2).
Proof.
  intros (l & P & F) H. exists (map f l). split; [now apply Permutation_map|].
  clear P. induction F as [|a b l l2 Hab _ IH]; cbn [map]; [constructor|]. constructor; [now apply H|exact IH].
Qed.

Lemma count_same k l1 l2 : same_in_some_order same_run l1 l2 -> count_status k l1 = count_status k l2.
Proof.
  intros (l & P & F). unfold count_status.
  transitivity (List.length (filter (fun r => status_eqb (r_status r) k) l)).
  - clear F. induction P as [|x l l' _ IH|x y l|l l' l'' _ IH1 _ IH2]; cbn [filter]; try congruence.
    + destruct (status_eqb (r_status x) k); cbn; congruence.
    + destruct (status_eqb (r_status y) k), (status_eqb (r_status x) k); cbn; reflexivity.
  - clear P. induction F as [|a b l l2 (_ & _ & E & _) _ IH]; cbn [filter]; [reflexivity|].
    rewrite E. destruct (status_eqb (r_status b) k); cbn; congruence.
Qed.

(** Equal runs and correct counts make equal records. *)
Lemma accounts_same er1 er2 :
  (forall k, stat_get (er_stats er1) k = count_status k (er_runs er1)) ->
  (forall k, stat_get (er_stats er2) k = count_status k (er_runs er2)) ->
  List.length (er_runs er1) = er_total er1 -> List.length (er_runs er2) = er_total er2 ->
  same_in_some_order same_run (er_runs er1) (er_runs er2) -> same_exec_record er1 er2.
Proof.
  intros C1 C2 L1 L2 S. split; [|split; [|exact S]].
  - assert (G : forall k, stat_get (er_stats er1) k = stat_get (er_stats er2) k).
    { intros k. rewrite C1, C2. apply count_same, S. }
    pose proof (G OK) as G1. pose proof (G SKIP) as G2. pose proof (G DEPF) as G3. pose proof (G FAIL) as G4.
    destruct (er_stats er1), (er_stats er2). cbn in *. congruence.
  - rewrite <- L1, <- L2. destruct S as (l & P & F). rewrite (Permutation_length P). clear -F. induction F; cbn; congruence.
Qed.

Lemma graph_same_record : forall c1 c2 z1 z2 s1 s2 er1 er2,
  wf_dag (c_dag c1) -> requires_after (c_dag c1) -> c_dag c2 = c_dag c1 ->
  (forall n, job_invalidated c1 n <-> job_invalidated c2 n) ->
  reachable c1 z1 s1 -> reachable c2 z2 s2 ->
  (forall n o1 o2, In (EEnd n o1) (trace s1) -> In (EEnd n o2) (trace s2) -> o1 = o2) ->
  result s1 = RRecord er1 -> result s2 = RRecord er2 -> same_exec_record er1 er2.
Proof.
  intros c1 c2 z1 z2 s1 s2 er1 er2 Hwf Hreq Hdag Hinv HR1 HR2 Hout H1 H2.
  assert (wf2 : wf_dag (c_dag c2)) by (rewrite Hdag; exact Hwf).
  destruct (result_accounts c1 z1 s1 er1 Hwf HR1 H1) as (_ & L1 & C1 & _).
  destruct (result_accounts c2 z2 s2 er2 wf2 HR2 H2) as (_ & L2 & C2 & _).
  apply accounts_same; [exact C1|exact C2|exact L1|exact L2|]. apply (same_by_key r_node).
  - eapply Permutation_trans; [exact (proj1 (recorded_once c1 z1 s1 er1 Hwf HR1 H1))|].
    rewrite <- Hdag. apply Permutation_sym. exact (proj1 (recorded_once c2 z2 s2 er2 wf2 HR2 H2)).
  - intros a b Ha Hb E. rewrite (finished_runs c1 z1 s1 Hwf HR1 er1 H1) in Ha.
    rewrite (finished_runs c2 z2 s2 wf2 HR2 er2 H2) in Hb.
    exact (same_outcome c1 z1 s1 c2 z2 s2 Hwf Hreq Hdag Hinv HR1 HR2 Hout a b Ha Hb E).
Qed.

(** A task of the set has its path as name, another one has none. *)
Lemma set_names st ts filt iv addr c t : execution_of st ts filt iv addr c -> selected st ts filt t ->
  (forall p, holds ts p t -> node_name (c_dag c) (addr t) = full_name p) /\
  (~ (exists p, holds ts p t) -> node_name (c_dag c) (addr t) = "").
Proof.
  intros X Ht. pose proof (exec_facts _ _ _ _ _ _ X) as (Hwf & _).
  destruct X as (k & ord1 & ord2 & Ho1 & Ho2 & Hord & Hown & Hfr & E).
  unfold exec_set in E. destruct (insert_set dag0 st ts filt addr ord1 ord2) as [[g n]| |] eqn:Eb; [|discriminate..].
  inversion E as [Ec]. subst c. cbn [c_dag] in *. clear E.
  destruct (selects_exactly dag0 st ts filt addr ord1 ord2 Ho1 Ho2 Hown g n Eb) as (new & Hd & _ & Hs & Hx).
  apply Hs in Ht. apply in_map_iff in Ht. destruct Ht as (x & <- & Hin). destruct (Hx x Hin) as (Hid & Hnm & Hout).
  assert (Hin' : In x (d_nodes g)) by (rewrite Hd; apply in_or_app; auto).
  pose proof (lookup_found (d_nodes g) x (proj1 Hwf) Hin') as Hl. rewrite Hid in Hl.
  unfold node_name. rewrite Hl. split; [exact Hnm|exact Hout].
Qed.

Lemma holds_dec ts t : (exists p, holds ts p t) \/ ~ (exists p, holds ts p t).
Proof.
  destruct (in_dec Nat.eq_dec t (map snd (for_each_task ts))) as [H|H].
  - left. apply in_map_iff in H. destruct H as ([name u] & <- & H). apply named_holds in H. destruct H as (p & H & _).
    exists p. exact H.
  - right. intros (p & Hp). apply H. apply in_map_iff. exists (full_name p, t). split; [reflexivity|].
    apply named_holds. exists p. auto.
Qed.

Lemma ended_node c z s n o : wf_dag (c_dag c) -> reachable c z s -> In (EEnd n o) (trace s) -> In n (node_ids (c_dag c)).
Proof.
  intros W HR H. apply in_rev in H. pose proof (end_begin c _ n o (r_log c z s W HR) H) as B.
  apply in_rev in B. fold (trace s) in B. apply in_split in B. destruct B as (u & v & B).
  exact (proj1 (at_most_once c z s u n v W HR B)).
Qed.

Lemma set_same_record : forall st ts filt iv addr1 addr2 c1 c2 z1 z2 s1 s2 er1 er2,
  execution_of st ts filt iv addr1 c1 -> execution_of st ts filt iv addr2 c2 ->
  reachable c1 z1 s1 -> reachable c2 z2 s2 ->
  (forall t o1 o2, In (EEnd (addr1 t) o1) (trace s1) -> In (EEnd (addr2 t) o2) (trace s2) ->
     selected st ts filt t -> o1 = o2) ->
  result s1 = RRecord er1 -> result s2 = RRecord er2 -> same_exec_record er1 er2.
Proof.
  intros st ts filt iv addr1 addr2 c1 c2 z1 z2 s1 s2 er1 er2 X1 X2 HR1 HR2 Hout H1 H2.
  pose proof (exec_facts _ _ _ _ _ _ X1) as (W1 & RA1 & _ & T1 & N1 & _).
  pose proof (exec_facts _ _ _ _ _ _ X2) as (W2 & RA2 & _ & T2 & N2 & _).
  destruct (result_accounts c1 z1 s1 er1 W1 HR1 H1) as (_ & L1 & C1 & _).
  destruct (result_accounts c2 z2 s2 er2 W2 HR2 H2) as (_ & L2 & C2 & _).
  destruct (set_recorded_once _ _ _ _ _ _ X1 z1 s1 er1 HR1 H1) as (D1 & S1 & _ & P1).
  destruct (set_recorded_once _ _ _ _ _ _ X2 z2 s2 er2 HR2 H2) as (D2 & S2 & _ & P2).
  apply accounts_same; [exact C1|exact C2|exact L1|exact L2|]. apply (same_by_key r_task).
  - apply NoDup_Permutation; [exact D1|exact D2|]. intros t. rewrite S1, S2. reflexivity.
  - intros a b Ha Hb E. split; [exact E|].
    assert (Sa : selected st ts filt (r_task a)) by (apply S1, in_map, Ha).
    split.
    + destruct (proj2 (recorded_once c1 z1 s1 er1 W1 HR1 H1) a Ha) as [_ ->].
      destruct (proj2 (recorded_once c2 z2 s2 er2 W2 HR2 H2) b Hb) as [_ ->].
      rewrite (proj1 (P1 a Ha)), (proj1 (P2 b Hb)), <- E.
      destruct (set_names _ _ _ _ _ _ _ X1 Sa) as [A1 A2]. destruct (set_names _ _ _ _ _ _ _ X2 Sa) as [B1 B2].
      destruct (holds_dec ts (r_task a)) as [(p & Hp)|Hn].
      * rewrite (A1 p Hp), (B1 p Hp). reflexivity.
      * rewrite (A2 Hn), (B2 Hn). reflexivity.
    + rewrite (finished_runs c1 z1 s1 W1 HR1 er1 H1) in Ha. rewrite (finished_runs c2 z2 s2 W2 HR2 er2 H2) in Hb.
      apply (names_fate st ts filt ts filt iv addr1 addr2 c1 c2 z1 z2 s1 s2 X1 X2) with (1 := fun t => iff_refl _)
        (2 := HR1) (3 := HR2) (5 := Ha) (6 := Hb) (7 := E).
      intros n1 n2 o1 o2 G1 G2 En.
      assert (I1 : In n1 (node_ids (c_dag c1))).
      { exact (ended_node c1 z1 s1 n1 o1 W1 HR1 G1). }
      assert (I2 : In n2 (node_ids (c_dag c2))).
      { exact (ended_node c2 z2 s2 n2 o2 W2 HR2 G2). }
      destruct (N1 n1 I1) as (t1 & Q1 & ->). destruct (N2 n2 I2) as (t2 & Q2 & ->).
      destruct (T1 t1 Q1) as (_ & E1 & _). destruct (T2 t2 Q2) as (_ & E2 & _). rewrite E1, E2 in En. subst t2.
      exact (Hout t1 o1 o2 G1 G2 Q1).
Qed.

Section Reports.
  Variables (er1 er2 : exec_record).
  Hypothesis Hsame : same_exec_record er1 er2.

  Lemma same_junit fmt_secs now1 now2 suite : er_runs er1 <> [] ->
    plain_text suite -> plain_text now1 -> plain_text now2 -> (forall d, plain_text (fmt_secs d)) ->
    (forall r, In r (er_runs er1) -> plain_text (r_name r)) ->
    exists t1 t2 x1 x2,
      generate_junit_xml fmt_secs now1 suite er1 = Some t1 /\ parse_xml t1 = Some x1 /\
      generate_junit_xml fmt_secs now2 suite er2 = Some t2 /\ parse_xml t2 = Some x2 /\
      same_suite x1 x2.
  Proof.
    intros Hne Hs Hn1 Hn2 Hf Hnames. destruct Hsame as (E1 & _ & (l & P & F)).
    assert (Hnames2 : forall r, In r (er_runs er2) -> plain_text (r_name r)).
    { intros r Hr. assert (G : exists a, In a l /\ r_name a = r_name r).
      { clear P. induction F as [|a b l l2 (_ & N & _) _ IH]; [destruct Hr|]. destruct Hr as [<-|Hr].
        - exists a. split; [left; reflexivity|exact N].
        - destruct (IH Hr) as (x & Hx & Ex). exists x. split; [right; exact Hx|exact Ex]. }
      destruct G as (a & Ha & <-). apply Hnames. eapply Permutation_in; [apply Permutation_sym; exact P|exact Ha]. }
    assert (Len : List.length (er_runs er1) = List.length (er_runs er2)).
    { rewrite (Permutation_length P). clear -F. induction F; cbn; congruence. }
    assert (Hne2 : er_runs er2 <> []).
    { intros E. rewrite E in Len. destruct (er_runs er1); [congruence|discriminate]. }
    destruct (runtime_sum_spec er1 Hne) as (k1 & _ & _ & K1 & _).
    destruct (runtime_sum_spec er2 Hne2) as (k2 & _ & _ & K2 & _).
    destruct (junit_parses fmt_secs now1 suite er1 k1 K1 Hs Hn1) as (t1 & A1 & A2).
    { apply Forall_forall. intros r Hr. auto. }
    destruct (junit_parses fmt_secs now2 suite er2 k2 K2 Hs Hn2) as (t2 & B1 & B2).
    { apply Forall_forall. intros r Hr. auto. }
    exists t1, t2. eexists _, _. split; [exact A1|]. split; [exact A2|]. split; [exact B1|]. split; [exact B2|].
    split; [reflexivity|]. split.
    - cbn. rewrite Len, E1. reflexivity.
    - cbn [el_children]. apply (in_some_order_map _ _ same_run); [exists l; split; assumption|].
      intros a b (_ & N & _ & Rc & _). unfold same_case, case_xml. cbn. rewrite N, Rc. auto.
  Qed.

  Lemma same_json fmt_tp : same_json_report (json_exec fmt_tp er1) (json_exec fmt_tp er2).
  Proof.
    destruct Hsame as (E1 & E2 & E3). split; [reflexivity|]. split.
    - intros k v Hk. cbn. rewrite E1, E2. split; intros H;
        repeat (destruct H as [H|H]; [first [left; exact H|inversion H; subst; congruence]|right]); exact H.
    - eexists _, _. split; [cbn; auto 10|]. split; [cbn; auto 10|].
      apply (in_some_order_map _ _ same_run); [exact E3|].
      intros a b (_ & N & St & Rc & O). split; [reflexivity|]. intros k v K1 K2. cbn. rewrite N, St, Rc, O.
      split; intros H; repeat (destruct H as [H|H]; [first [left; exact H|inversion H; subst; congruence]|right]); exact H.
  Qed.
End Reports.

(** For two executions. *)
Lemma set_same_junit : forall st ts filt iv addr1 addr2 c1 c2 z1 z2 s1 s2 er1 er2 fmt_secs now1 now2 suite,
  execution_of st ts filt iv addr1 c1 -> execution_of st ts filt iv addr2 c2 ->
  reachable c1 z1 s1 -> reachable c2 z2 s2 ->
  (forall t o1 o2, In (EEnd (addr1 t) o1) (trace s1) -> In (EEnd (addr2 t) o2) (trace s2) ->
     selected st ts filt t -> o1 = o2) ->
  result s1 = RRecord er1 -> result s2 = RRecord er2 ->
  (exists t, selected st ts filt t) ->
  plain_text suite -> plain_text now1 -> plain_text now2 -> (forall d, plain_text (fmt_secs d)) ->
  (forall p t, holds ts p t -> plain_text (full_name p)) ->
  exists t1 t2 x1 x2,
    generate_junit_xml fmt_secs now1 suite er1 = Some t1 /\ parse_xml t1 = Some x1 /\
    generate_junit_xml fmt_secs now2 suite er2 = Some t2 /\ parse_xml t2 = Some x2 /\
    same_suite x1 x2.
Proof.
  intros st ts filt iv addr1 addr2 c1 c2 z1 z2 s1 s2 er1 er2 fmt_secs now1 now2 suite X1 X2 HR1 HR2 Hout H1 H2
    (t & Ht) Hs N1 N2 Hf Hp.
  pose proof (exec_facts _ _ _ _ _ _ X1) as (W1 & _).
  destruct (set_recorded_once _ _ _ _ _ _ X1 z1 s1 er1 HR1 H1) as (_ & S1 & _ & P1).
  apply same_junit; auto.
  - exact (set_same_record _ _ _ _ _ _ _ _ _ _ _ _ _ _ X1 X2 HR1 HR2 Hout H1 H2).
  - intros E. apply S1 in Ht. rewrite E in Ht. exact Ht.
  - intros r Hr. destruct (proj2 (recorded_once c1 z1 s1 er1 W1 HR1 H1) r Hr) as [_ ->]. rewrite (proj1 (P1 r Hr)).
    assert (Sr : selected st ts filt (r_task r)) by (apply S1, in_map, Hr).
    destruct (set_names _ _ _ _ _ _ _ X1 Sr) as [A1 A2]. destruct (holds_dec ts (r_task r)) as [(p & Hh)|Hn].
    + rewrite (A1 p Hh). exact (Hp p _ Hh).
    + rewrite (A2 Hn). exact I.
Qed.

Lemma set_same_json : forall st ts filt iv addr1 addr2 c1 c2 z1 z2 s1 s2 er1 er2 fmt_tp,
  execution_of st ts filt iv addr1 c1 -> execution_of st ts filt iv addr2 c2 ->
  reachable c1 z1 s1 -> reachable c2 z2 s2 ->
  (forall t o1 o2, In (EEnd (addr1 t) o1) (trace s1) -> In (EEnd (addr2 t) o2) (trace s2) ->
     selected st ts filt t -> o1 = o2) ->
  result s1 = RRecord er1 -> result s2 = RRecord er2 ->
  same_json_report (json_exec fmt_tp er1) (json_exec fmt_tp er2).
Proof.
  intros st ts filt iv addr1 addr2 c1 c2 z1 z2 s1 s2 er1 er2 fmt_tp X1 X2 HR1 HR2 Hout H1 H2.
  apply same_json. exact (set_same_record _ _ _ _ _ _ _ _ _ _ _ _ _ _ X1 X2 HR1 HR2 Hout H1 H2).
Qed.
