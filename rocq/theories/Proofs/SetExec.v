(** Executions of task sets. *)
From Coq Require Import String Ascii Sorted Relations Permutation Lia.
From Verif Require Import Model.Common Model.Records Model.Jobs Model.TaskSet Model.Dag
     Model.Sched Model.Exec Model.ExecSet Spec.Graph Spec.Trace Spec.Tasks
     Proofs.Sets Proofs.TaskFacts Proofs.BuildFacts Proofs.BuildProps
     Proofs.TraceFacts Proofs.ExecInv Proofs.LogFacts Proofs.ExecProps Proofs.ExecProps2 Proofs.ExecProps3
     Proofs.ExecProps4.
Open Scope string_scope.
Open Scope nat_scope.
Open Scope list_scope.

(** ** C55 over invalidated-by *)
Lemma valid_skipped c z s er :
  wf_dag (c_dag c) -> requires_after (c_dag c) -> reachable c z s -> result s = RRecord er ->
  (forall a b, requires (c_dag c) a b -> inval_by (c_dag c) a b) ->
  forall k l1 r l2, er_runs er = l1 ++ r :: l2 -> List.length l1 <= k -> ~ Invalidated c (r_node r) ->
  r_status r = SKIP.
Proof.
  intros Hwf Hra HR H Hri. induction k as [|k IH]; intros l1 r l2 E Hk Hni.
  all: assert (HI : In r (records (trace s)))
      by (rewrite <- (finished_runs c z s Hwf HR er H), E; apply in_or_app; cbn; auto).
  all: destruct (status_decision c z s r Hwf Hra HR HI) as (SD & SS & _ & _); cbn zeta in *.
  all: apply SS; split; [|exact Hni]; intros (b & rb & Hrb & Hin & Hn & Hbad).
  all: destruct (record_order c z s er l1 r l2 b Hwf HR H E (Hra _ _ Hrb)) as [(rb' & Hin' & Hn') _].
  - destruct l1; [destruct Hin'|cbn in Hk; lia].
  - apply in_split in Hin'. destruct Hin' as (m1 & m2 & ->).
    assert (Hsk : r_status rb' = SKIP).
    { apply (IH m1 rb' (m2 ++ r :: l2)).
      - rewrite E, <- app_assoc. reflexivity.
      - rewrite app_length in Hk. cbn in Hk. lia.
      - intros [w [Hw Hj]]. apply Hni. exists w. split; [|exact Hj]. rewrite Hn' in Hw.
        eapply rt_trans; [apply rt_step, Hri, Hrb|exact Hw]. }
    assert (Eq : rb = rb').
    { apply (same_record c z s Hwf HR); [exact Hin| |congruence].
      rewrite <- (finished_runs c z s Hwf HR er H), E. apply in_or_app. left. apply in_or_app. cbn. auto. }
    subst rb'. rewrite Hsk in Hbad. discriminate.
Qed.

Theorem skip_closed_inval : forall c z s er a b,
  wf_dag (c_dag c) -> requires_after (c_dag c) -> reachable c z s -> result s = RRecord er ->
  (forall a b, requires (c_dag c) a b -> inval_by (c_dag c) a b) ->
  clos_trans nid (fun x y => inval_by (c_dag c) x y) a b ->
  (exists r, In r (er_runs er) /\ r_node r = a /\ r_status r = SKIP) ->
  exists r, In r (er_runs er) /\ r_node r = b /\ r_status r = SKIP.
Proof.
  intros c z s er a b Hwf Hra HR H Hri Hab (r & Hr & Hn & Hs).
  assert (Hb : In b (node_ids (c_dag c))).
  { apply clos_trans_tn1 in Hab. destruct Hab as [? Hab|? ? Hab _]; apply Hwf in Hab; apply Hab. }
  destruct (finished_recorded c z s Hwf HR er b H Hb) as (rb & Hrb & Hnb).
  rewrite (finished_runs c z s Hwf HR er H) in *.
  destruct (status_decision c z s r Hwf Hra HR Hr) as (_ & SS & _ & _). cbn zeta in SS.
  apply SS in Hs. destruct Hs as [_ Hni].
  exists rb. split; [exact Hrb|]. split; [exact Hnb|].
  pose proof (in_split _ _ Hrb) as (l1 & l2 & E).
  apply (valid_skipped c z s er Hwf Hra HR H Hri (List.length l1) l1 rb l2); [|lia|].
  - rewrite (finished_runs c z s Hwf HR er H). exact E.
  - intros [w [Hw Hj]]. apply Hni. exists w. split; [|exact Hj]. rewrite Hn. rewrite Hnb in Hw.
    eapply rt_trans; [apply clos_t_rt; exact Hab|exact Hw].
Qed.

Lemma lookup_node_In ns x : NoDup (map n_id ns) -> In x ns -> lookup_node ns (n_id x) = Some x.
Proof.
  induction ns as [|y ns IH]; cbn; [intros _ []|]. intros Hn [->|Hx]; [now rewrite Nat.eqb_refl|].
  inversion Hn as [|? ? Hy Hl]; subst. destruct (Nat.eqb_spec (n_id y) (n_id x)) as [E|_]; [|auto].
  exfalso. apply Hy. rewrite E. now apply in_map.
Qed.

Section Exec.
Variable st : store.
Variable ts : task_set.
Variable filt : string.
Variable iv : tid -> inval_answer.
Variable addr : tid -> nid.
Variable c : config.
Hypothesis Hexec : execution_of st ts filt iv addr c.
Notation sel := (selected st ts filt).

(** What [execution_of] gives. *)
Lemma exec_facts :
  wf_dag (c_dag c) /\ requires_after (c_dag c) /\
  (forall a b, requires (c_dag c) a b -> inval_by (c_dag c) a b) /\
  (forall t, sel t -> In (addr t) (node_ids (c_dag c)) /\ node_task (c_dag c) (addr t) = t /\
                      (forall p, holds ts p t -> node_name (c_dag c) (addr t) = full_name p)) /\
  (forall n, In n (node_ids (c_dag c)) -> exists t, sel t /\ n = addr t) /\
  (forall a b, sel a -> sel b -> addr a = addr b -> a = b) /\
  (forall a b k, In (Edge a b k) (d_edges (c_dag c)) <->
     exists x y, sel x /\ sel y /\ a = addr x /\ b = addr y /\
       (depends_on st x y \/ (k = AFTER /\ In y (t_run_after (st_get st x))) \/
        (k = INVALIDATED_BY /\ In y (t_invalidated_by (st_get st x))))) /\
  c_task c = st_get st /\ (forall t, sel t -> c_inval c (addr t) = iv t).
Proof.
  destruct Hexec as (k & ord1 & ord2 & Ho1 & Ho2 & Hord & Hown & Hfr & E).
  unfold exec_set in E. destruct (insert_set dag0 st ts filt addr ord1 ord2) as [[g n]| |] eqn:Eb; [|discriminate..].
  inversion E as [Ec]. subst c. cbn [c_dag c_task c_inval]. clear E.
  assert (Hwf : wf_dag g).
  { eapply built_wf; [exact Ho1|exact Ho2|exact Eb| |exact Hfr]. split; [constructor|intros e []]. }
  assert (Hnt : forall t, sel t -> In (addr t) (node_ids g) /\ node_task g (addr t) = t /\
                      (forall p, holds ts p t -> node_name g (addr t) = full_name p)).
  { intros t Ht. destruct (selects_exactly dag0 st ts filt addr ord1 ord2 Ho1 Ho2 Hown g n Eb) as (new & Hd & _ & Hs & Hx).
    apply Hs in Ht. apply in_map_iff in Ht. destruct Ht as (x & <- & Hin). destruct (Hx x Hin) as (Hid & Hnm & _).
    assert (Hin' : In x (d_nodes g)) by (rewrite Hd; apply in_or_app; auto).
    pose proof (lookup_node_In (d_nodes g) x (proj1 Hwf) Hin') as Hl. rewrite Hid in Hl.
    unfold node_task, node_name. rewrite Hl. split; [|split; [reflexivity|exact Hnm]].
    rewrite <- Hid. unfold node_ids. now apply in_map. }
  split; [exact Hwf|]. split; [|split; [|split; [exact Hnt|split; [|split; [apply Hfr|split; [|split; [reflexivity|]]]]]]].
  - eapply built_requires_after; [exact Ho1|exact Ho2|exact Eb|intros a b []].
  - eapply built_requires_inval; [exact Ho1|exact Ho2|exact Eb|intros a b []].
  - intros x Hx. eapply built_nodes in Hx; [|exact Ho1|exact Ho2|exact Eb]. destruct Hx as [[]|Hx]. exact Hx.
  - intros a b kd. rewrite (built_edges dag0 st ts filt addr ord1 ord2 Ho1 Ho2 g n Eb). cbn [d_edges dag0 In e_src e_tgt]. split.
    + intros [[]|(t & Ht & [(d & H1 & H2 & H3)|[(d & H1 & H2 & H3)|(d & H1 & H2 & H3)]])].
      * exists t, d. split; [exact Ht|]. split; [eapply sel_dep; eassumption|]. auto.
      * inversion H3; subst. exists t, d. auto 10.
      * inversion H3; subst. exists t, d. auto 10.
    + intros (x & y & Hx & Hy & -> & -> & H). right. exists x. split; [exact Hx|].
      destruct H as [H|[[-> H]|[-> H]]]; [left|right; left|right; right]; exists y; auto.
  - intros t Ht. now rewrite (proj1 (proj2 (Hnt t Ht))).
Qed.

Lemma after_edge a b : sel a -> sel b -> task_after st a b -> runs_after (c_dag c) (addr a) (addr b).
Proof.
  intros Ha Hb Hab. destruct exec_facts as (_ & _ & _ & _ & _ & _ & He & _). apply He.
  exists a, b. destruct Hab; auto 10.
Qed.

Lemma sel_trans a b : sel a -> clos_trans tid (depends_on st) a b -> sel b.
Proof.
  intros Ha Hab. apply clos_trans_t1n in Hab. induction Hab as [a b Hab|a x b Hax _ IH].
  - eapply sel_dep; eassumption.
  - apply IH. eapply sel_dep; eassumption.
Qed.

Lemma dep_path a b : sel a -> clos_trans tid (depends_on st) a b -> clos_trans nid (requires (c_dag c)) (addr a) (addr b).
Proof.
  destruct exec_facts as (_ & _ & _ & _ & _ & _ & He & _).
  assert (Hs : forall x y, sel x -> depends_on st x y -> requires (c_dag c) (addr x) (addr y)).
  { intros x y Hx Hxy. apply He. exists x, y. split; [exact Hx|]. split; [eapply sel_dep; eassumption|auto]. }
  intros Ha Hab. apply clos_trans_t1n in Hab. induction Hab as [a b Hab|a x b Hax _ IH].
  - apply t_step. auto.
  - eapply t_trans; [apply t_step; apply Hs; eassumption|]. apply IH. eapply sel_dep; eassumption.
Qed.

(** Every execution is of exactly the selected tasks. *)
Theorem set_recorded_once z s er :
  reachable c z s -> result s = RRecord er ->
  NoDup (map r_task (er_runs er)) /\
  (forall t, In t (map r_task (er_runs er)) <-> sel t) /\
  er_total er = List.length (er_runs er) /\
  (forall r, In r (er_runs er) -> r_node r = addr (r_task r) /\
     forall p, holds ts p (r_task r) -> r_name r = full_name p).
Proof.
  intros HR H. destruct exec_facts as (Hwf & _ & _ & Hn & Hns & Hinj & _).
  destruct (recorded_once c z s er Hwf HR H) as [HP Hr].
  assert (Hsel : forall r, In r (er_runs er) -> exists t, sel t /\ r_node r = addr t /\ r_task r = t).
  { intros r Hin. assert (Hin' : In (r_node r) (node_ids (c_dag c))) by (apply (Permutation_in _ HP), in_map, Hin).
    destruct (Hns _ Hin') as (t & Ht & E). exists t. split; [exact Ht|]. split; [exact E|].
    destruct (Hr r Hin) as [-> _]. rewrite E. apply Hn, Ht. }
  split; [|split; [|split]].
  - assert (Hnd : NoDup (map r_node (er_runs er))) by (eapply Permutation_NoDup; [symmetry; exact HP|apply Hwf]).
    clear HP. revert Hsel Hnd. generalize (er_runs er) at 1 2 3. intros l Hsel Hnd.
    induction l as [|r l IH]; cbn in *; constructor.
    + intros HI. apply in_map_iff in HI. destruct HI as (r' & E & Hin).
      destruct (Hsel r (or_introl eq_refl)) as (t & Ht & E1 & E2). destruct (Hsel r' (or_intror Hin)) as (t' & Ht' & E1' & E2').
      inversion Hnd as [|? ? Hx Hy]; subst. apply Hx. rewrite E1, <- E, <- E1'. now apply in_map.
    + apply IH; [auto|now inversion Hnd].
  - intros t. rewrite in_map_iff. split.
    + intros (r & <- & Hin). destruct (Hsel r Hin) as (t & Ht & _ & ->). exact Ht.
    + intros Ht. destruct (Hn t Ht) as (Hin & Htk & _). apply (Permutation_in _ (Permutation_sym HP)) in Hin.
      apply in_map_iff in Hin. destruct Hin as (r & E & Hin). exists r. split; [|exact Hin].
      destruct (Hr r Hin) as [-> _]. now rewrite E.
  - destruct (result_accounts c z s er Hwf HR H) as (_ & E & _). now rewrite E.
  - intros r Hin. destruct (Hsel r Hin) as (t & Ht & E1 & E2). rewrite E2. split; [exact E1|].
    intros p Hp. destruct (Hr r Hin) as [_ ->]. rewrite E1. now apply Hn.
Qed.

(** A job starts only after those its task depends on or runs after. *)
Theorem set_order z s a b pre post :
  reachable c z s -> selected_after st ts filt a b -> trace s = pre ++ EBegin (addr a) :: post ->
  recorded pre (addr b) /\ (In (EBegin (addr b)) pre -> exists o, In (EEnd (addr b) o) pre) /\
  ~ In (EBegin (addr b)) post.
Proof.
  intros HR (Ha & Hb & Hab) E. destruct exec_facts as (Hwf & _).
  apply (run_after_order c z s (addr a) (addr b) pre post Hwf HR); [now apply after_edge|exact E].
Qed.

Theorem set_resource_exclusion z s pre post a b r :
  reachable c z s -> trace s = pre ++ post -> sel a -> sel b ->
  In (addr a) (running pre) -> In (addr b) (running pre) ->
  In r (t_resources (st_get st a)) -> In r (t_resources (st_get st b)) -> a = b.
Proof.
  intros HR E Ha Hb Hra Hrb H1 H2. destruct exec_facts as (Hwf & _ & _ & Hn & _ & Hinj & _ & Hc & _).
  apply Hinj; [assumption..|].
  apply (resource_exclusion c z s pre post (addr a) (addr b) r Hwf HR E Hra Hrb); unfold node_res; rewrite Hc.
  - rewrite (proj1 (proj2 (Hn a Ha))). exact H1.
  - rewrite (proj1 (proj2 (Hn b Hb))). exact H2.
Qed.

Theorem set_failed_blocks z s a b rb :
  reachable c z s -> sel a -> clos_trans tid (depends_on st) a b ->
  In rb (records (trace s)) -> r_node rb = addr b -> is_bad (r_status rb) = true ->
  ~ In (EBegin (addr a)) (trace s) /\
  (forall ra, In ra (records (trace s)) -> r_node ra = addr a -> r_status ra = DEPF) /\
  (forall er, result s = RRecord er ->
     exists ra, In ra (er_runs er) /\ r_node ra = addr a /\ r_status ra = DEPF).
Proof.
  intros HR Ha Hab. destruct exec_facts as (Hwf & Hra & _).
  apply (failed_blocks_dependants c z s (addr a) (addr b) rb Hwf Hra HR). now apply dep_path.
Qed.

Theorem set_skip_closed z s er a b :
  reachable c z s -> result s = RRecord er ->
  clos_trans tid (selected_inval st ts filt) a b ->
  (exists r, In r (er_runs er) /\ r_task r = a /\ r_status r = SKIP) ->
  exists r, In r (er_runs er) /\ r_task r = b /\ r_status r = SKIP.
Proof.
  intros HR H Hab (r & Hr & Hn & Hs). pose proof exec_facts as (Hwf & Hra & Hri & Hnode & _ & _ & He & _).
  destruct (set_recorded_once z s er HR H) as (_ & _ & _ & Hid).
  assert (Hp : clos_trans nid (inval_by (c_dag c)) (addr a) (addr b) /\ sel b).
  { clear Hn Hs Hr r. induction Hab as [a b (Ha & Hb & Hab)|a x b _ [I1 _] _ [I2 Sb]].
    - split; [|exact Hb]. apply t_step. apply He. exists a, b. destruct Hab; auto 10.
    - split; [|exact Sb]. eapply t_trans; eassumption. }
  destruct Hp as [Hp Hb].
  destruct (skip_closed_inval c z s er (addr a) (addr b) Hwf Hra HR H Hri Hp) as (rb & Hrb & Hnb & Hsb).
  { exists r. split; [exact Hr|]. split; [|exact Hs]. destruct (Hid r Hr) as [-> _]. now rewrite Hn. }
  exists rb. split; [exact Hrb|]. split; [|exact Hsb].
  destruct (recorded_once c z s er Hwf HR H) as [_ Hr']. destruct (Hr' rb Hrb) as [-> _]. rewrite Hnb. apply Hnode, Hb.
Qed.

(** 'Cycle detected' exactly if the selected tasks form one. *)
Lemma set_cycle_iff : has_after_cycle (c_dag c) <-> exists t, clos_trans tid (selected_after st ts filt) t t.
Proof.
  destruct exec_facts as (Hwf & _ & _ & _ & _ & Hinj & He & _). split.
  - intros [n Hn].
    assert (Hp : forall x y, clos_trans nid (runs_after (c_dag c)) x y ->
              exists a b, sel a /\ sel b /\ x = addr a /\ y = addr b /\ clos_trans tid (selected_after st ts filt) a b).
    { intros x y Hxy. induction Hxy as [x y Hxy|x y z' _ (a & b & Ha & Hb & -> & -> & I1) _ (b' & d & Hb' & Hd & E & -> & I2)].
      - apply He in Hxy. destruct Hxy as (a & b & Ha & Hb & -> & -> & Hab). exists a, b. repeat split; auto.
        apply t_step. split; [exact Ha|]. split; [exact Hb|].
        destruct Hab as [Hab|[[_ Hab]|[Hk _]]]; [left; exact Hab|right; exact Hab|discriminate].
      - exists a, d. repeat split; auto. rewrite (Hinj b b' Hb Hb' E) in I1. eapply t_trans; eassumption. }
    destruct (Hp n n Hn) as (a & b & Ha & Hb & E1 & E2 & Hab).
    rewrite (Hinj b a Hb Ha) in Hab by congruence. eauto.
  - intros [t Ht]. exists (addr t).
    assert (Hp : forall x y, clos_trans tid (selected_after st ts filt) x y -> clos_trans nid (runs_after (c_dag c)) (addr x) (addr y)).
    { intros x y Hxy. induction Hxy as [x y (Hx & Hy & Hxy)|x y z' _ I1 _ I2]; [apply t_step; now apply after_edge|].
      eapply t_trans; eassumption. }
    now apply Hp.
Qed.

Theorem set_cycle_detected z s0 s :
  reachable c z s0 -> s_pc s0 = Created -> step c s0 LTick = Some s ->
  (result s = RThrow ExcCycle <-> exists t, clos_trans tid (selected_after st ts filt) t t).
Proof.
  intros HR Hpc Hs. rewrite <- set_cycle_iff. destruct exec_facts as (Hwf & _).
  exact (cycle_detected_iff c z s0 s Hwf HR Hpc Hs).
Qed.

Notation task_invalidated := (task_invalidated st ts filt iv).

Lemma set_invalidated t : sel t -> (Invalidated c (addr t) <-> task_invalidated t).
Proof.
  intros Ht. destruct exec_facts as (Hwf & _ & _ & Hn & Hns & Hinj & He & _ & Hiv). split.
  - intros (m & Hm & log & Hj).
    assert (Hp : exists u, sel u /\ m = addr u /\ clos_refl_trans tid (selected_inval st ts filt) t u).
    { clear Hj. apply clos_rt_rtn1 in Hm. induction Hm as [|y z' Hyz _ IH]; [exists t; auto using rt_refl|].
      destruct IH as (u & Hu & E & Htu).
      apply He in Hyz. destruct Hyz as (a & b & Ha & Hb & E1 & -> & Hab). subst y.
      assert (u = a) by (apply Hinj; auto). subst u. exists b. split; [exact Hb|]. split; [reflexivity|].
      eapply rt_trans; [exact Htu|]. apply rt_step. split; [exact Ha|]. split; [exact Hb|].
      destruct Hab as [Hab|[[Hk _]|[_ Hab]]]; [left; exact Hab|discriminate|right; exact Hab]. }
    destruct Hp as (u & Hu & -> & Htu). exists u, log. split; [exact Htu|]. now rewrite <- (Hiv u Hu).
  - intros (u & log & Htu & Hj).
    assert (Hp : sel u /\ clos_refl_trans nid (inval_by (c_dag c)) (addr t) (addr u)).
    { clear Hj. apply clos_rt_rtn1 in Htu. induction Htu as [|y z' (Hy & Hz & Hyz) _ [IH1 IH2]]; [auto using rt_refl|].
      split; [exact Hz|]. eapply rt_trans; [exact IH2|]. apply rt_step. apply He. exists y, z'. destruct Hyz; auto 10. }
    exists (addr u). split; [apply Hp|]. exists log. rewrite Hiv; [exact Hj|apply Hp].
Qed.

(** If nothing fails, exactly the invalidated tasks are executed. *)
Theorem set_incremental z s er :
  reachable c z s -> result s = RRecord er ->
  (forall r, In r (er_runs er) -> r_status r <> FAIL) ->
  forall t, sel t ->
    (task_invalidated t -> In (EBegin (addr t)) (trace s)) /\
    (~ task_invalidated t -> ~ In (EBegin (addr t)) (trace s)) /\
    exists r, In r (er_runs er) /\ r_task r = t /\
      (task_invalidated t -> r_status r = OK) /\ (~ task_invalidated t -> r_status r = SKIP).
Proof.
  intros HR H Hok t Ht. pose proof exec_facts as (Hwf & Hra & Hri & Hn & _).
  destruct (Hn t Ht) as (Hin & Htask & _).
  assert (Hnobad : forall k l1 r l2, er_runs er = l1 ++ r :: l2 -> List.length l1 <= k -> is_bad (r_status r) = false).
  { induction k as [|k IH]; intros l1 r l2 E Hk.
    all: assert (HI : In r (records (trace s)))
      by (rewrite <- (finished_runs c z s Hwf HR er H), E; apply in_or_app; cbn; auto).
    all: destruct (status_decision c z s r Hwf Hra HR HI) as (SD & _); cbn zeta in *.
    all: destruct (r_status r) eqn:Es; try reflexivity;
      [|exfalso; apply (Hok r); [rewrite E; apply in_or_app; cbn; auto|exact Es]].
    all: destruct (proj1 SD eq_refl) as (b & rb & Hrb & Hinb & Hnb & Hbad).
    all: destruct (record_order c z s er l1 r l2 b Hwf HR H E (Hra _ _ Hrb)) as [(rb' & Hin' & Hn') _].
    - destruct l1; [destruct Hin'|cbn in Hk; lia].
    - apply in_split in Hin'. destruct Hin' as (m1 & m2 & ->).
      assert (Eq : rb = rb').
      { apply (same_record c z s Hwf HR); [exact Hinb| |congruence].
        rewrite <- (finished_runs c z s Hwf HR er H), E. apply in_or_app. left. apply in_or_app. cbn. auto. }
      subst rb'. rewrite (IH m1 rb (m2 ++ r :: l2)) in Hbad; [discriminate| |].
      + rewrite E, <- app_assoc. reflexivity.
      + rewrite app_length in Hk. cbn in Hk. lia. }
  destruct (finished_recorded c z s Hwf HR er (addr t) H Hin) as (r & Hr & Hnr).
  rewrite <- (finished_runs c z s Hwf HR er H) in Hr.
  pose proof Hr as Hr'. rewrite (finished_runs c z s Hwf HR er H) in Hr'.
  destruct (status_decision c z s r Hwf Hra HR Hr') as (SD & SS & SR & _). cbn zeta in *. rewrite Hnr in *.
  assert (Hnb : ~ bad_requirement c (trace s) (addr t)).
  { intros HB. apply SD in HB. apply in_split in Hr. destruct Hr as (l1 & l2 & E).
    specialize (Hnobad (List.length l1) l1 r l2 E (le_n _)). rewrite HB in Hnobad. discriminate. }
  assert (Hst : (task_invalidated t -> r_status r = OK) /\ (~ task_invalidated t -> r_status r = SKIP)).
  { split; intros HT.
    - apply (set_invalidated t Ht) in HT. destruct (SR Hnb HT) as (o & _ & _ & _ & _ & Es).
      destruct (job_code o =? 0)%Z; [exact Es|]. exfalso. now apply (Hok r).
    - apply SS. split; [exact Hnb|]. now rewrite (set_invalidated t Ht). }
  split; [|split].
  - intros HT. apply (executed_iff_status c z s er (addr t) Hwf HR H Hin). exists r. repeat split; auto. left. now apply Hst.
  - intros HT HB. apply (executed_iff_status c z s er (addr t) Hwf HR H Hin) in HB.
    destruct HB as (r2 & H2 & Hn2 & Hs2). assert (r2 = r).
    { apply (same_record c z s Hwf HR); [now rewrite <- (finished_runs c z s Hwf HR er H)|exact Hr'|congruence]. }
    subst r2. destruct Hst as [_ Hst]. rewrite (Hst HT) in Hs2. destruct Hs2; discriminate.
  - exists r. split; [exact Hr|]. split; [|exact Hst].
    destruct (recorded_once c z s er Hwf HR H) as [_ Hrr]. destruct (Hrr r Hr) as [-> _]. now rewrite Hnr.
Qed.
End Exec.

Lemma exec_set_undefined : forall st ts threads filt iv addr ord1 ord2,
  some_order ord1 -> some_order ord2 ->
  (exec_set st ts threads filt iv addr ord1 ord2 = BuildUB <-> exists t, selected st ts filt t /\ ~ In t (st_dom st)) /\
  exec_set st ts threads filt iv addr ord1 ord2 <> BuildFuel.
Proof.
  intros st ts threads filt iv addr ord1 ord2 H1 H2.
  destruct (insert_set_undefined dag0 st ts filt addr ord1 ord2 H1 H2) as [Hu Hf]. unfold exec_set.
  destruct (insert_set dag0 st ts filt addr ord1 ord2) as [[g n]| |].
  - split; [|discriminate]. rewrite <- Hu. split; discriminate.
  - split; [|discriminate]. rewrite <- Hu. split; auto.
  - contradiction.
Qed.
