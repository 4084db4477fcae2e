(** Files during an execution, and what a second execution finds. *)
From Coq Require Import Lia String Relations Permutation.
From Verif Require Import Model.Common Model.Records Model.Jobs Model.TaskSet Model.Dag
     Model.Sched Model.Exec Model.ExecSet Model.Text Model.Process Model.JobTypes
     Spec.Graph Spec.Trace Spec.Tasks Spec.Files
     Proofs.Sets Proofs.TaskFacts Proofs.BuildFacts Proofs.BuildProps Proofs.TraceFacts Proofs.ExecInv Proofs.LogFacts Proofs.ExecProps Proofs.ExecProps2
     Proofs.ExecProps3 Proofs.ExecProps4 Proofs.SetExec Proofs.ProcessFacts Proofs.RootCause.
Open Scope string_scope.
Open Scope nat_scope.
Open Scope list_scope.

Lemma stale_noticed fmt f p : detectable f p -> stale f p -> iv_invalidated (is_invalidated fmt f p) = true.
Proof.
  intros Hd [H|H]; [apply bad_run_noticed, H|].
  assert (K : forall (b : inval_result), iv_invalidated b = true ->
     iv_invalidated match p_retcode p with
                 | None => b
                 | Some rf => match f rf with
                     | Some x => let last := read_retcode x in
                       if (last =? 0)%Z then b else InvalResult true ("last retcode is nonzero: " ++ dec_Z last ++ " in " ++ rf)
                     | None => InvalResult true ("no retcode file" ++ rf) end end = true).
  { intros b Hb. destruct (p_retcode p) as [rf|]; [|exact Hb]. destruct (f rf); [|reflexivity].
    cbn zeta. destruct (read_retcode f0 =? 0)%Z; [exact Hb|reflexivity]. }
  unfold is_invalidated. cbn zeta in *. apply K. clear K.
  unfold out_of_date in H. destruct (p_output p) as [|o os] eqn:Eo; [reflexivity|].
  destruct Hd as [E|(Hi & Hpos)]; [congruence|].
  destruct (p_input p) as [|i is] eqn:Ei; [congruence|].
  set (old := min_element (path_to_write_time f) o os).
  set (new := max_element (path_to_write_time f) i is).
  destruct (min_element_spec (path_to_write_time f) os o) as [Ho1 Ho2]. fold old in Ho1, Ho2.
  destruct (max_element_spec (path_to_write_time f) is i) as [Hi1 Hi2]. fold new in Hi1, Hi2.
  rewrite Eo in Hpos. unfold fs_exists. destruct (f old) as [xo|] eqn:Exo; cbn [negb iv_invalidated]; [|reflexivity].
  apply Z.leb_le. destruct H as [H|[(m & Hm & Em)|(o' & i' & xo' & xi' & H1 & H2 & E1 & E2 & H)]]; [discriminate| |].
  - exfalso. specialize (Hpos (ex_intro _ m (conj Hm Em)) old xo Ho1 Exo).
    specialize (Ho2 m Hm). unfold path_to_write_time in Ho2. rewrite Exo, Em in Ho2. lia.
  - specialize (Ho2 o' H1). specialize (Hi2 i' H2). unfold path_to_write_time in Ho2 at 2. unfold path_to_write_time in Hi2 at 1.
    rewrite E1 in Ho2. rewrite E2 in Hi2. lia.
Qed.

Lemma made_not_noticed fmt f p : p_output p <> [] -> p_input p <> [] -> made f p ->
  (forall i, In i (p_input p) -> f i <> None) -> iv_invalidated (is_invalidated fmt f p) = false.
Proof.
  intros Ho Hi (M1 & M2 & M3) Hex. destruct (iv_invalidated (is_invalidated fmt f p)) eqn:E; [|reflexivity].
  exfalso. apply check_iff in E.
  - destruct E as [(rf & Er & H)|[H|[(o & H1 & H2)|(o & i & xo & xi & H1 & H2 & H3 & H4 & H)]]].
    + destruct (M1 rf Er) as (x & E1 & E2). destruct H as [H|(y & H1 & H2)]; congruence.
    + congruence.
    + exact (M2 o H1 H2).
    + specialize (M3 _ _ _ _ H1 H2 H3 H4). lia.
  - right. split; [exact Hi|]. split; [exact Hex|]. intros (o & H1 & H2). destruct (M2 o H1 H2).
Qed.

Lemma made_eq f g p : (forall q, In q (writes p) \/ In q (p_input p) -> f q = g q) -> made g p -> made f p.
Proof.
  intros E (M1 & M2 & M3).
  assert (Eo : forall o, In o (p_output p) -> f o = g o).
  { intros o Ho. apply E. left. apply in_app_iff. auto. }
  assert (Ei : forall i, In i (p_input p) -> f i = g i) by auto.
  split; [|split].
  - intros rf Er. rewrite E; [apply M1, Er|]. left. apply in_app_iff. right. rewrite Er. cbn. auto.
  - intros o Ho. rewrite Eo by exact Ho. apply M2, Ho.
  - intros o i xo xi Ho Hi. rewrite Eo, Ei by assumption. apply M3; assumption.
Qed.

Lemma file_eq (a b : option file) : a = b \/ a <> b.
Proof.
  assert (D : {a = b} + {a <> b}).
  { decide equality. decide equality; [apply Bool.bool_dec|apply String.string_dec|apply Z.eq_dec]. }
  destruct D; auto.
Qed.

Lemma history_end pr f0 tr e f : file_history pr f0 (tr ++ [e]) f ->
  exists g, file_history pr f0 tr g /\
    (forall q, f q <> g q -> exists n, In n (running tr) /\ In q (writes (pr n))) /\
    (forall n o, e = EEnd n o -> job_code o = 0%Z -> made f (pr n)).
Proof.
  intros H. inversion H as [E|tr' e' g f' H1 H2 H3 E].
  - destruct tr; discriminate.
  - apply app_inj_tail in E. destruct E; subst. eauto.
Qed.

(** What no running job may write stays. *)
Lemma history_frame pr f0 a b : forall f, file_history pr f0 (a ++ b) f ->
  exists g, file_history pr f0 a g /\
    forall q, (forall n b1 b2, b = b1 ++ b2 -> In n (running (a ++ b1)) -> ~ In q (writes (pr n))) -> f q = g q.
Proof.
  induction b as [|e b IH] using rev_ind; intros f H.
  - rewrite app_nil_r in H. exists f. auto.
  - rewrite app_assoc in H. destruct (history_end _ _ _ _ _ H) as (g & Hg & Hw & _).
    destruct (IH g Hg) as (g0 & H0 & Hq). exists g0. split; [exact H0|]. intros q Hn.
    rewrite <- (Hq q).
    + destruct (file_eq (f q) (g q)) as [|N]; [assumption|exfalso].
      destruct (Hw q N) as (n & Hr & Hi). exact (Hn n b [e] eq_refl Hr Hi).
    + intros n b1 b2 ->. apply (Hn n b1 (b2 ++ [e])). apply app_assoc_reverse.
Qed.

Section Build.
Variable fmt : Z -> string.
Variable st : store.
Variable ts : task_set.
Variable filt : string.
Variable job : tid -> process.
Variable f0 : fs.
Variable addr : tid -> nid.
Variable c : config.
Notation sel := (selected st ts filt).
Hypothesis Hexec : execution_of st ts filt (process_checks fmt f0 job) addr c.
Hypothesis Hfiles : declares_files st ts filt f0 job.
Hypothesis Hdet : forall t, sel t -> detectable f0 (job t).
Notation pr := (fun n => job (node_task (c_dag c) n)).
Variable z : Z.
Variable s : state.
Variable er : exec_record.
Variable f1 : fs.
Hypothesis HR : reachable c z s.
Hypothesis Hres : result s = RRecord er.
Hypothesis Hok : forall r, In r (er_runs er) -> r_status r <> FAIL.
Hypothesis Hhist : file_history pr f0 (trace s) f1.

Lemma running_node pre post n : trace s = pre ++ post -> In n (running pre) ->
  In (EBegin n) pre /\ exists u, sel u /\ n = addr u /\ pr n = job u.
Proof.
  intros E Hn. destruct (exec_facts _ _ _ _ _ _ Hexec) as (Hwf & _ & _ & Ht & Hs & _).
  apply (running_meaning c z s pre post n Hwf HR E) in Hn. destruct Hn as [Hn _]. split; [exact Hn|].
  assert (Hb : In (EBegin n) (trace s)) by (rewrite E; apply in_app_iff; auto).
  apply in_split in Hb. destruct Hb as (p1 & p2 & Eb).
  destruct (at_most_once c z s p1 n p2 Hwf HR Eb) as (Hid & _).
  destruct (Hs n Hid) as (u & Hu & ->). exists u. split; [exact Hu|]. split; [reflexivity|].
  cbn beta. rewrite (proj1 (proj2 (Ht u Hu))). reflexivity.
Qed.

(** A task that was executed is done. *)
Lemma executed_made t o : sel t -> In (EEnd (addr t) o) (trace s) -> job_code o = 0%Z -> made f1 (job t).
Proof.
  intros Ht Hend Hc. destruct (exec_facts _ _ _ _ _ _ Hexec) as (Hwf & _ & _ & Hn & _ & Hinj & _).
  destruct Hfiles as (D1 & D2 & _).
  apply in_split in Hend. destruct Hend as (a & b & E).
  assert (E1 : trace s = (a ++ [EEnd (addr t) o]) ++ b) by (rewrite <- app_assoc; exact E).
  pose proof Hhist as HH. rewrite E1 in HH. destruct (history_frame _ _ _ _ _ HH) as (g & Hg & Hq).
  destruct (history_end _ _ _ _ _ Hg) as (_ & _ & _ & Hmade). specialize (Hmade _ _ eq_refl Hc).
  cbn beta in Hmade. rewrite (proj1 (proj2 (Hn t Ht))) in Hmade.
  apply (made_eq f1 g); [|exact Hmade]. intros q Hq'. apply Hq. intros n b1 b2 Eb Hr Hi.
  assert (E2 : trace s = ((a ++ [EEnd (addr t) o]) ++ b1) ++ b2) by (rewrite <- app_assoc, <- Eb; exact E1).
  pose proof (running_node _ _ _ E2 Hr) as (Hbn & u & Hu & -> & Ep). cbn beta in Ep. rewrite Ep in Hi.
  apply (running_meaning c z s _ _ (addr u) Hwf HR E2) in Hr. destruct Hr as [_ Hr].
  destruct Hq' as [Hw|Hin].
  - assert (u = t) by (eapply D1; eassumption). subst u. apply Hr. exists o.
    apply in_app_iff. left. apply in_app_iff. right. cbn. auto.
  - pose proof (D2 t u q Ht Hu Hin Hi) as Hdep.
    assert (Hra : clos_trans nid (runs_after (c_dag c)) (addr t) (addr u)).
    { pose proof (dep_path _ _ _ _ _ _ Hexec t u Ht Hdep) as Hp. destruct (exec_facts _ _ _ _ _ _ Hexec) as (_ & Hreq & _).
      clear - Hp Hreq. induction Hp as [x y H|x y w _ IH1 _ IH2]; [apply t_step, Hreq, H|eapply t_trans; eassumption]. }
    destruct (trace_at c z s Hwf HR _ _ _ E) as [[He _] Hl]. cbn [ev_cond] in He.
    assert (Hba : In (EBegin (addr t)) a) by (apply in_rev; apply He).
    apply in_split in Hba. destruct Hba as (a1 & a2 & Ea).
    assert (E3 : trace s = a1 ++ EBegin (addr t) :: (a2 ++ EEnd (addr t) o :: b)).
    { rewrite E, Ea, <- app_assoc. reflexivity. }
    destruct (transitive_order c z s (addr t) (addr u) _ _ Hwf HR Hra E3) as (_ & O1 & O2).
    assert (Hbu : In (EBegin (addr u)) (trace s)) by (rewrite E2; apply in_app_iff; left; exact Hbn).
    rewrite E3 in Hbu. apply in_app_iff in Hbu. destruct Hbu as [Hbu|[Hbu|Hbu]].
    + destruct (O1 Hbu) as [o' Ho']. apply Hr. exists o'. apply in_app_iff. left. apply in_app_iff. left.
      rewrite Ea. apply in_app_iff. left. exact Ho'.
    + injection Hbu as Hbu. assert (u = t) by (apply Hinj; auto). subst u.
      apply Hr. exists o. apply in_app_iff. left. apply in_app_iff. right. cbn. auto.
    + exact (O2 Hbu).
Qed.

(** A task that was skipped was done before, and its files have not changed. *)
Lemma skipped_made t : sel t -> ~ task_invalidated st ts filt (process_checks fmt f0 job) t -> made f1 (job t).
Proof.
  intros Ht Hni. destruct (exec_facts _ _ _ _ _ _ Hexec) as (Hwf & _ & _ & Hn & _ & Hinj & _).
  destruct Hfiles as (D1 & D2 & _).
  assert (Hst : ~ stale f0 (job t)).
  { intros Hs. apply Hni. exists t, (iv_log (is_invalidated fmt f0 (job t))). split; [apply rt_refl|].
    unfold process_checks. rewrite (stale_noticed fmt f0 (job t) (Hdet t Ht) Hs). reflexivity. }
  assert (Hm : made f0 (job t)).
  { split; [|split].
    - intros rf Er. destruct (f0 rf) as [x|] eqn:Ex.
      + exists x. split; [reflexivity|]. destruct (Z.eq_dec (read_retcode x) 0) as [|N]; [assumption|].
        exfalso. apply Hst. left. exists rf. split; [exact Er|]. right. eauto.
      + exfalso. apply Hst. left. exists rf. auto.
    - intros o Ho Eo. apply Hst. right. right. left. eauto.
    - intros o i xo xi Ho Hi Eo Ei. destruct (Z_lt_le_dec (f_time xi) (f_time xo)) as [|N]; [assumption|].
      exfalso. apply Hst. right. right. right. exists o, i, xo, xi. auto. }
  apply (made_eq f1 f0); [|exact Hm]. intros q Hq.
  pose proof Hhist as HH. change (trace s) with ([] ++ trace s) in HH.
  destruct (history_frame _ _ _ _ _ HH) as (g & Hg & Hfr).
  assert (Eg : g = f0).
  { inversion Hg as [E|tr e x y _ _ _ E]; [reflexivity|]. destruct tr; discriminate. }
  subst g. apply Hfr. intros n b1 b2 Eb Hr Hi. cbn [app] in Hr.
  destruct (running_node _ _ _ Eb Hr) as (Hbn & u & Hu & -> & Ep). cbn beta in Ep. rewrite Ep in Hi.
  assert (Hbu : In (EBegin (addr u)) (trace s)) by (rewrite Eb; apply in_app_iff; auto).
  assert (Hinv : task_invalidated st ts filt (process_checks fmt f0 job) u).
  { apply (set_invalidated _ _ _ _ _ _ Hexec u Hu).
    apply trace_in in Hbu. apply (begin_launch c _ _ (r_log c z s Hwf HR)) in Hbu.
    destruct (log_in c _ _ (r_log c z s Hwf HR) Hbu) as (l1 & l2 & _ & [He _] & _). cbn [ev_cond] in He. apply He. }
  apply Hni. destruct Hinv as (w & lg & Huw & Hw). exists w, lg. split; [|exact Hw].
  destruct Hq as [Hq|Hq].
  - assert (u = t) by (eapply D1; eassumption). subst u. exact Huw.
  - eapply rt_trans; [|exact Huw]. apply clos_t_rt. pose proof (D2 t u q Ht Hu Hq Hi) as Hdep.
    clear - Hdep Ht. apply clos_trans_t1n in Hdep. induction Hdep as [x y H|x y w H _ IH].
    + apply t_step. split; [exact Ht|]. split; [eapply sel_dep; eassumption|]. left. exact H.
    + eapply t_trans; [apply t_step|apply IH; eapply sel_dep; eassumption].
      split; [exact Ht|]. split; [eapply sel_dep; eassumption|]. left. exact H.
Qed.

Lemma all_made t : sel t -> made f1 (job t).
Proof.
  intros Ht. destruct (exec_facts _ _ _ _ _ _ Hexec) as (Hwf & Hra & _ & Hn & _).
  destruct (Hn t Ht) as (Hid & _).
  destruct (finished_recorded c z s Hwf HR er (addr t) Hres Hid) as (r & Hr & En).
  assert (Hgood : forall q, In q (records (trace s)) -> r_status q <> FAIL).
  { intros q Hq. apply Hok. rewrite (finished_runs c z s Hwf HR er Hres). exact Hq. }
  destruct (status_decision c z s r Hwf Hra HR Hr) as (_ & SS & _ & _). cbn zeta in SS. rewrite En in SS.
  destruct (r_status r) eqn:Es.
  - destruct (status_rule c z s r Hwf Hra HR Hr) as (_ & _ & SR & _). cbn zeta in SR. rewrite En in SR.
    destruct (SR (or_introl Es)) as (o & Ho & Hc & _ & Hf). apply (executed_made t o Ht Ho).
    rewrite <- lambda_code, <- Hc. destruct (Z.eq_dec (r_retcode r) 0) as [|N]; [assumption|].
    apply Hf in N. congruence.
  - apply skipped_made; [exact Ht|]. intros Hi. apply (set_invalidated _ _ _ _ _ _ Hexec t Ht) in Hi.
    apply (proj1 SS eq_refl). exact Hi.
  - exfalso. destruct (root_cause c z s r Hwf HR Hr Es) as (b & rb & o & _ & Hb & _ & Eb & _). exact (Hgood rb Hb Eb).
  - exfalso. exact (Hgood r Hr Es).
Qed.

Lemma inputs_exist t i : sel t -> In i (p_input (job t)) -> f1 i <> None.
Proof.
  intros Ht Hi. destruct Hfiles as (D1 & D2 & D3).
  destruct (exec_facts _ _ _ _ _ _ Hexec) as (Hwf & _ & _ & Hn & Hs & _).
  assert (Hdec : (exists u, sel u /\ In i (writes (job u))) \/ (forall u, sel u -> ~ In i (writes (job u)))).
  { destruct (List.Exists_dec (fun n => In i (writes (pr n))) (node_ids (c_dag c))) as [H|H].
    - intros n. apply in_dec, String.string_dec.
    - left. apply Exists_exists in H. destruct H as (n & Hin & H). destruct (Hs n Hin) as (u & Hu & ->).
      exists u. split; [exact Hu|]. rewrite (proj1 (proj2 (Hn u Hu))) in H. exact H.
    - right. intros u Hu Hw. apply H. apply Exists_exists. exists (addr u). split; [apply Hn, Hu|].
      rewrite (proj1 (proj2 (Hn u Hu))). exact Hw. }
  destruct Hdec as [(u & Hu & Hw)|Hno].
  - destruct (all_made u Hu) as (M1 & M2 & _). apply in_app_iff in Hw. destruct Hw as [Hw|Hw]; [apply M2, Hw|].
    destruct (p_retcode (job u)) as [rf|] eqn:Er; [|destruct Hw]. destruct Hw as [<-|[]].
    destruct (M1 rf eq_refl) as (x & Ex & _). congruence.
  - pose proof (D3 t i Ht Hi Hno) as H0. pose proof Hhist as HH. change (trace s) with ([] ++ trace s) in HH.
    destruct (history_frame _ _ _ _ _ HH) as (g & Hg & Hfr).
    assert (Eg : g = f0).
    { inversion Hg as [E|tr e x y _ _ _ E]; [reflexivity|]. destruct tr; discriminate. }
    subst g. rewrite Hfr; [exact H0|]. intros n b1 b2 Eb Hr Hw. cbn [app] in Hr.
    destruct (running_node _ _ _ Eb Hr) as (_ & u & Hu & -> & Ep). cbn beta in Ep. rewrite Ep in Hw. exact (Hno u Hu Hw).
Qed.

Lemma second_run fmt2 addr2 c2 z2 s2 t :
  execution_of st ts filt (process_checks fmt2 f1 job) addr2 c2 -> reachable c2 z2 s2 ->
  sel t -> In (EBegin (addr2 t)) (trace s2) ->
  exists u, clos_refl_trans tid (selected_inval st ts filt) t u /\ p_output (job u) = [].
Proof.
  intros He2 HR2 Ht Hb. destruct (exec_facts _ _ _ _ _ _ He2) as (Hwf & _).
  assert (Hinv : task_invalidated st ts filt (process_checks fmt2 f1 job) t).
  { apply (set_invalidated _ _ _ _ _ _ He2 t Ht).
    apply trace_in in Hb. apply (begin_launch c2 _ _ (r_log c2 z2 s2 Hwf HR2)) in Hb.
    destruct (log_in c2 _ _ (r_log c2 z2 s2 Hwf HR2) Hb) as (l1 & l2 & _ & [He _] & _). cbn [ev_cond] in He. apply He. }
  destruct Hinv as (u & lg & Htu & Hu). exists u. split; [exact Htu|].
  assert (Hsu : sel u).
  { apply clos_rt_rtn1 in Htu. destruct Htu as [|y u (_ & Hs & _)]; assumption. }
  destruct (p_output (job u)) as [|o os] eqn:Eo; [reflexivity|exfalso].
  unfold process_checks in Hu. rewrite (made_not_noticed fmt2 f1 (job u)) in Hu; [discriminate|congruence| | |].
  - destruct (Hdet u Hsu) as [H|[H _]]; [congruence|exact H].
  - apply all_made, Hsu.
  - intros i Hi. eapply inputs_exist; eassumption.
Qed.

Lemma second_run_idle fmt2 addr2 c2 z2 s2 :
  execution_of st ts filt (process_checks fmt2 f1 job) addr2 c2 -> reachable c2 z2 s2 ->
  (forall t, sel t -> p_output (job t) <> []) ->
  (forall e, In e (trace s2) -> ~ job_activity e) /\
  (forall r, In r (records (trace s2)) -> r_status r = SKIP).
Proof.
  intros He2 HR2 Hout. destruct (exec_facts _ _ _ _ _ _ He2) as (Hwf & _ & _ & _ & Hs & _ & _ & _ & Hiv).
  destruct (nothing_to_do c2 z2 s2 Hwf HR2) as (N1 & N2 & _); [|auto].
  intros n Hn (lg & Hj). destruct (Hs n Hn) as (u & Hu & ->). rewrite (Hiv u Hu) in Hj. unfold process_checks in Hj.
  rewrite (made_not_noticed fmt2 f1 (job u)) in Hj; [discriminate|apply Hout, Hu| | |].
  - destruct (Hdet u Hu) as [H|[H _]]; [destruct (Hout u Hu H)|exact H].
  - apply all_made, Hu.
  - intros i Hi. eapply inputs_exist; eassumption.
Qed.
End Build.

(** One run of a process that does its work. *)
Lemma successful_run p e f0 o f1 :
  process_run p e f0 = (o, f1) -> job_code o = 0%Z ->
  (forall q, In q (p_output p) -> sb_fs e q <> None) ->
  (forall q i xo xi, In q (p_output p) -> In i (p_input p) -> sb_fs e q = Some xo -> sb_fs e i = Some xi ->
                     (f_time xi < f_time xo)%Z) ->
  (forall rf, p_retcode p = Some rf -> sb_can_create e = true /\ ~ In rf (p_output p) /\ ~ In rf (p_input p)) ->
  made f1 p /\ forall q, f1 q <> sb_fs e q -> In q (writes p).
Proof.
  intros Hrun Hc Hex Hnew Hrf.
  destruct (process_returns p e f0) as [(r & g & E)|(rf & what & code & _ & _ & _ & E)];
    rewrite E in Hrun; inversion Hrun; subst; [|discriminate].
  destruct (process_result p e f0 r f1 E) as (H0 & _). cbn in Hc. apply H0 in Hc.
  rewrite (run_completed p e f0 0%Z Hc) in E. cbn zeta in E.
  destruct (p_retcode p) as [rf|] eqn:Er.
  - destruct (Hrf rf eq_refl) as (Hcr & Hno & Hni).
    destruct (sb_remove_throws e); [discriminate|]. rewrite Hcr in E. inversion E; subst. clear E.
    assert (Eq : forall q, q <> rf -> fs_set (fs_set (sb_fs e) rf None) rf (Some (File (sb_now e) (dec_Z 0) true)) q = sb_fs e q).
    { intros q Hq. unfold fs_set. destruct (String.eqb_spec q rf); [contradiction|reflexivity]. }
    split; [split; [|split]|].
    + intros rf' E'. rewrite Er in E'. inversion E'; subst. eexists. split; [unfold fs_set; rewrite String.eqb_refl; reflexivity|].
      reflexivity.
    + intros q Hq. rewrite Eq by congruence. apply Hex, Hq.
    + intros q i xo xi Hq Hi. rewrite !Eq by congruence. apply Hnew; assumption.
    + intros q Hq. apply in_app_iff. right. rewrite Er. cbn. destruct (String.eqb_spec q rf) as [->|N]; [auto|].
      exfalso. apply Hq. apply Eq. exact N.
  - inversion E; subst. split; [split; [|split]|]; auto.
    + intros rf' E'. congruence.
    + intros q Hq. congruence.
Qed.

(** Plain callables. *)
Section Callables.
Variable st : store.
Variable ts : task_set.
Variable filt : string.
Variable iv : tid -> inval_answer.
Variable addr : tid -> nid.
Variable c : config.
Notation sel := (selected st ts filt).
Hypothesis Hexec : execution_of st ts filt iv addr c.

Lemma req_path n m : clos_trans nid (requires (c_dag c)) n m ->
  forall t, sel t -> n = addr t -> exists u, sel u /\ m = addr u /\ clos_trans tid (depends_on st) t u.
Proof.
  destruct (exec_facts _ _ _ _ _ _ Hexec) as (_ & _ & _ & _ & _ & Hinj & He & _).
  intros H. apply clos_trans_t1n in H. induction H as [n m H|n x m H _ IH]; intros t Ht ->.
  all: apply He in H; destruct H as (a & b & Ha & Hb & Ea & -> & [H|[[H _]|[H _]]]); try discriminate.
  all: apply Hinj in Ea; auto; subst a.
  - exists b. auto using t_step.
  - destruct (IH b Hb eq_refl) as (u & Hu & Eu & Hp). exists u. split; [exact Hu|]. split; [exact Eu|].
    eapply t_trans; [apply t_step; exact H|exact Hp].
Qed.

Lemma invalid_never_skipped z s t u lg :
  reachable c z s -> sel t -> clos_refl_trans tid (selected_inval st ts filt) t u -> iv u = IvRet true lg ->
  (forall r, In r (records (trace s)) -> r_task r = t -> r_status r <> SKIP) /\
  (forall er, result s = RRecord er -> ~ In (EBegin (addr t)) (trace s) ->
     exists b rb, clos_trans tid (depends_on st) t b /\ In rb (er_runs er) /\ r_task rb = b /\ r_status rb = FAIL).
Proof.
  intros HR Ht Htu Hu. destruct (exec_facts _ _ _ _ _ _ Hexec) as (Hwf & Hra & _ & Hn & Hs & Hinj & _).
  assert (HI : Invalidated c (addr t)) by (apply (set_invalidated _ _ _ _ _ _ Hexec t Ht); exists u, lg; auto).
  assert (Hnode : forall r, In r (records (trace s)) -> exists x, sel x /\ r_node r = addr x /\ r_task r = x).
  { intros r Hr. destruct (record_facts c z s Hwf HR r Hr) as (Hid & _). destruct (Hs _ Hid) as (x & Hx & Ex).
    exists x. split; [exact Hx|]. split; [exact Ex|].
    destruct (rec_at c _ r (r_log c z s Hwf HR) Hr) as (l1 & e & y & l2 & _ & He & _). cbn [ev_cond] in He.
    destruct He as (_ & _ & _ & _ & _ & (Et & _) & _). rewrite Et, Ex. apply (Hn x Hx). }
  split.
  - intros r Hr Er Es. destruct (Hnode r Hr) as (x & _ & En & Ex). rewrite Er in Ex. rewrite <- Ex in En.
    destruct (status_decision c z s r Hwf Hra HR Hr) as (_ & SS & _). cbn zeta in SS.
    rewrite En in SS. apply SS in Es. apply Es, HI.
  - intros er Hres Hb. destruct (Hn t Ht) as (Hid & _).
    destruct (finished_recorded c z s Hwf HR er (addr t) Hres Hid) as (r & Hr & En).
    assert (Es : r_status r = DEPF).
    { destruct (record_facts c z s Hwf HR r Hr) as (_ & _ & F). cbn zeta in F. rewrite En in F.
      destruct (r_status r); [exfalso; apply Hb; apply F|exfalso; exact (proj1 F HI)|reflexivity|exfalso; apply Hb; apply F]. }
    destruct (root_cause c z s r Hwf HR Hr Es) as (b & rb & o & Hp & Hrb & Eb & Ef & _). rewrite En in Hp.
    destruct (req_path _ _ Hp t Ht eq_refl) as (x & Hx & -> & Hd).
    exists x, rb. split; [exact Hd|]. rewrite (finished_runs c z s Hwf HR er Hres). split; [exact Hrb|]. split; [|exact Ef].
    destruct (Hnode rb Hrb) as (y & Hy & Ey & Ety). rewrite Ety. apply Hinj; auto. congruence.
Qed.
End Callables.

Lemma callables_run : forall fmt f jb st ts filt addr c z s t u,
  execution_of st ts filt (job_checks fmt f jb) addr c -> reachable c z s ->
  selected st ts filt t -> clos_refl_trans tid (selected_inval st ts filt) t u -> jb u = JobCallable ->
  (forall r, In r (records (trace s)) -> r_task r = t -> r_status r <> SKIP) /\
  (forall er, result s = RRecord er -> ~ In (EBegin (addr t)) (trace s) ->
     exists b rb, clos_trans tid (depends_on st) t b /\ In rb (er_runs er) /\ r_task rb = b /\ r_status rb = FAIL).
Proof.
  intros fmt f jb st ts filt addr c z s t u He HR Ht Htu Hj.
  apply (invalid_never_skipped st ts filt _ addr c He z s t u "always invalidated" HR Ht Htu).
  unfold job_checks. rewrite Hj. reflexivity.
Qed.

(** Closed forms for the properties. *)
Lemma rebuild_made : forall fmt st ts filt job f0 addr c z s er f1,
  execution_of st ts filt (process_checks fmt f0 job) addr c ->
  declares_files st ts filt f0 job -> (forall t, selected st ts filt t -> detectable f0 (job t)) ->
  reachable c z s -> result s = RRecord er -> (forall r, In r (er_runs er) -> r_status r <> FAIL) ->
  file_history (fun n => job (node_task (c_dag c) n)) f0 (trace s) f1 ->
  forall t, selected st ts filt t ->
    made f1 (job t) /\ forall i, In i (p_input (job t)) -> f1 i <> None.
Proof.
  intros fmt st ts filt job f0 addr c z s er f1 He Hd Hdet HR H Hok Hh t Ht. split.
  - eapply all_made; eassumption.
  - intros i Hi. eapply inputs_exist; eassumption.
Qed.

Lemma rebuild_idle : forall fmt st ts filt job f0 addr c z s er f1 fmt2 addr2 c2 z2 s2,
  execution_of st ts filt (process_checks fmt f0 job) addr c ->
  declares_files st ts filt f0 job -> (forall t, selected st ts filt t -> detectable f0 (job t)) ->
  reachable c z s -> result s = RRecord er -> (forall r, In r (er_runs er) -> r_status r <> FAIL) ->
  file_history (fun n => job (node_task (c_dag c) n)) f0 (trace s) f1 ->
  execution_of st ts filt (process_checks fmt2 f1 job) addr2 c2 -> reachable c2 z2 s2 ->
  (forall t, selected st ts filt t -> In (EBegin (addr2 t)) (trace s2) ->
     exists u, clos_refl_trans tid (selected_inval st ts filt) t u /\ p_output (job u) = []) /\
  ((forall t, selected st ts filt t -> p_output (job t) <> []) ->
   (forall e, In e (trace s2) -> ~ job_activity e) /\
   (forall r, In r (records (trace s2)) -> r_status r = SKIP)).
Proof.
  intros fmt st ts filt job f0 addr c z s er f1 fmt2 addr2 c2 z2 s2 He Hd Hdet HR H Hok Hh He2 HR2. split.
  - intros t. exact (second_run fmt st ts filt job f0 addr c He Hd Hdet z s er f1 HR H Hok Hh fmt2 addr2 c2 z2 s2 t He2 HR2).
  - exact (second_run_idle fmt st ts filt job f0 addr c He Hd Hdet z s er f1 HR H Hok Hh fmt2 addr2 c2 z2 s2 He2 HR2).
Qed.
