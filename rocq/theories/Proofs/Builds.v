(** Several executions of the same tasks. *)
From Coq Require Import String Lia Relations.
From Verif Require Import Model.Common Model.Records Model.Jobs Model.TaskSet Model.Dag Model.Sched Model.Exec
     Model.Text Model.Process Model.JobTypes Spec.Graph Spec.Trace Spec.Tasks Spec.Files Spec.Builds
     Proofs.TraceFacts Proofs.ExecInv Proofs.LogFacts Proofs.ExecProps Proofs.ExecProps2 Proofs.ExecProps3
     Proofs.ExecProps4 Proofs.TaskFacts Proofs.BuildProps Proofs.SetExec Proofs.TextFacts Proofs.ProcessFacts Proofs.ProcessExact Proofs.Rebuild.
Open Scope nat_scope.
Open Scope list_scope.

Lemma bh_file pr f0 tr f : build_history pr f0 tr f -> file_history pr f0 tr f.
Proof.
  induction 1 as [|tr e f f' _ IH H1 H2 H3]; [constructor|]. econstructor; [exact IH|exact H1|].
  intros n o E Hc. exact (proj1 (H2 n o E Hc)).
Qed.
Lemma bh_end pr f0 tr e f : build_history pr f0 (tr ++ [e]) f ->
  exists g, build_history pr f0 tr g /\
    (forall q, f q <> g q -> exists n, In n (running tr) /\ In q (writes (pr n))) /\
    (forall n o, e = EEnd n o -> job_code o = 0%Z -> made f (pr n) /\ dated_since f0 f (pr n)) /\
    (forall n o, e = EEnd n o -> job_code o <> 0%Z -> p_retcode (pr n) <> None -> last_run_bad f (pr n)).
Proof.
  intros H. inversion H as [E|tr' e' g f' H1 H2 H3 H4 E].
  - destruct tr; discriminate.
  - apply app_inj_tail in E. destruct E; subst. eauto.
Qed.
Lemma bh_frame pr f0 a b : forall f, build_history pr f0 (a ++ b) f ->
  exists g, build_history pr f0 a g /\
    forall q, (forall n b1 b2, b = b1 ++ b2 -> In n (running (a ++ b1)) -> ~ In q (writes (pr n))) -> f q = g q.
Proof.
  induction b as [|e b IH] using rev_ind; intros f H.
  - rewrite app_nil_r in H. exists f. auto.
  - rewrite app_assoc in H. destruct (bh_end _ _ _ _ _ H) as (g & Hg & Hw & _).
    destruct (IH g Hg) as (g0 & H0 & Hq). exists g0. split; [exact H0|]. intros q Hn.
    rewrite <- (Hq q).
    + destruct (file_eq (f q) (g q)) as [|N]; [assumption|exfalso].
      destruct (Hw q N) as (n & Hr & Hi). exact (Hn n b [e] eq_refl Hr Hi).
    + intros n b1 b2 ->. apply (Hn n b1 (b2 ++ [e])). apply app_assoc_reverse.
Qed.
Lemma bh_changed pr f0 tr f : build_history pr f0 tr f -> forall q, f q <> f0 q ->
  exists pre post n, tr = pre ++ post /\ In n (running pre) /\ In q (writes (pr n)).
Proof.
  induction 1 as [|tr e f f' _ IH H1 _ _]; intros q Hq; [congruence|].
  destruct (file_eq (f' q) (f q)) as [E|N].
  - rewrite E in Hq. destruct (IH q Hq) as (pre & post & n & -> & Hr & Hw). exists pre, (post ++ [e]), n.
    split; [apply app_assoc_reverse|auto].
  - destruct (H1 q N) as (n & Hr & Hw). exists tr, [e], n. auto.
Qed.

Section Two.
Variable st : store.
Variable ts : task_set.
Variable filt : string.
Variable iv : tid -> inval_answer.
Variable job : tid -> process.
Variable f0 : fs.
Variable addr : tid -> nid.
Variable c : config.
Notation sel := (selected st ts filt).
Hypothesis Hexec : execution_of st ts filt iv addr c.
Notation pr := (fun n => job (node_task (c_dag c) n)).
Variable z : Z.
Variable s : state.
Variable f1 : fs.
Hypothesis HR : reachable c z s.
Hypothesis Hhist : build_history pr f0 (trace s) f1.
Hypothesis Hown : own_files st ts filt job.

Lemma run_node pre post n : trace s = pre ++ post -> In n (running pre) ->
  In (EBegin n) (trace s) /\ (~ exists o, In (EEnd n o) pre) /\ exists u, sel u /\ n = addr u /\ pr n = job u.
Proof.
  intros E Hn. destruct (exec_facts _ _ _ _ _ _ Hexec) as (Hwf & _ & _ & Ht & Hs & _).
  apply (running_meaning c z s pre post n Hwf HR E) in Hn. destruct Hn as [Hn Hne].
  assert (Hb : In (EBegin n) (trace s)) by (rewrite E; apply in_app_iff; auto).
  split; [exact Hb|]. split; [exact Hne|].
  apply in_split in Hb. destruct Hb as (p1 & p2 & Eb).
  destruct (at_most_once c z s p1 n p2 Hwf HR Eb) as (Hid & _).
  destruct (Hs n Hid) as (u & Hu & ->). exists u. split; [exact Hu|]. split; [reflexivity|].
  cbn beta. rewrite (proj1 (proj2 (Ht u Hu))). reflexivity.
Qed.

(** The files a task writes do not change after its job ended. *)
Lemma settled t o : sel t -> In (EEnd (addr t) o) (trace s) ->
  exists g, (job_code o = 0%Z -> made g (job t) /\ dated_since f0 g (job t)) /\
    (job_code o <> 0%Z -> p_retcode (job t) <> None -> last_run_bad g (job t)) /\
    forall q, In q (writes (job t)) -> f1 q = g q.
Proof.
  intros Ht Hend. destruct (exec_facts _ _ _ _ _ _ Hexec) as (Hwf & _ & _ & Hn & _ & Hinj & _).
  apply in_split in Hend. destruct Hend as (a & b & E).
  assert (E1 : trace s = (a ++ [EEnd (addr t) o]) ++ b) by (rewrite <- app_assoc; exact E).
  pose proof Hhist as HH. rewrite E1 in HH. destruct (bh_frame _ _ _ _ _ HH) as (g & Hg & Hq).
  destruct (bh_end _ _ _ _ _ Hg) as (_ & _ & _ & Hok & Hbad).
  exists g. cbn beta in Hok, Hbad.
  pose proof (proj1 (proj2 (Hn t Ht))) as En.
  split; [intros Hc; specialize (Hok _ _ eq_refl Hc); now rewrite En in Hok|].
  split; [intros Hc Hr; specialize (Hbad _ _ eq_refl Hc); rewrite En in Hbad; exact (Hbad Hr)|].
  intros q Hw. apply Hq. intros n b1 b2 Eb Hr Hi.
  assert (E2 : trace s = ((a ++ [EEnd (addr t) o]) ++ b1) ++ b2) by (rewrite <- app_assoc, <- Eb; exact E1).
  destruct (run_node _ _ _ E2 Hr) as (_ & Hne & u & Hu & -> & Ep). cbn beta in Ep. rewrite Ep in Hi.
  assert (u = t) by (eapply Hown; eassumption). subst u. apply Hne. exists o.
  apply in_app_iff. left. apply in_app_iff. right. cbn. auto.
Qed.
Lemma ended_ok t o q : sel t -> In (EEnd (addr t) o) (trace s) -> job_code o = 0%Z -> In q (writes (job t)) ->
  exists x, f1 q = Some x /\ forall q0 y, f0 q0 = Some y -> (f_time y <= f_time x)%Z.
Proof.
  intros Ht He Hc Hq. destruct (settled t o Ht He) as (g & Hok & _ & Hg). rewrite (Hg q Hq).
  exact (proj2 (Hok Hc) q Hq).
Qed.
Lemma ended_bad t o : sel t -> In (EEnd (addr t) o) (trace s) -> job_code o <> 0%Z ->
  p_retcode (job t) <> None -> last_run_bad f1 (job t).
Proof.
  intros Ht He Hc Hr. destruct (settled t o Ht He) as (g & _ & Hbad & Hg).
  destruct (Hbad Hc Hr) as (rf & Er & Hf). exists rf. split; [exact Er|]. rewrite (Hg rf); [exact Hf|].
  apply in_app_iff. right. rewrite Er. cbn. auto.
Qed.
Lemma untouched t q : sel t -> ~ In (EBegin (addr t)) (trace s) -> In q (writes (job t)) -> f1 q = f0 q.
Proof.
  intros Ht Hb Hq. destruct (file_eq (f1 q) (f0 q)) as [E|N]; [exact E|exfalso].
  destruct (bh_changed _ _ _ _ Hhist q N) as (pre & post & n & E & Hr & Hw).
  destruct (run_node _ _ _ E Hr) as (Hbn & _ & u & Hu & -> & Ep). cbn beta in Ep. rewrite Ep in Hw.
  assert (u = t) by (eapply Hown; eassumption). subst u. exact (Hb Hbn).
Qed.
Lemma changed_by q : f1 q <> f0 q -> exists u, sel u /\ In q (writes (job u)) /\ In (EBegin (addr u)) (trace s).
Proof.
  intros N. destruct (bh_changed _ _ _ _ Hhist q N) as (pre & post & n & E & Hr & Hw).
  destruct (run_node _ _ _ E Hr) as (Hbn & _ & u & Hu & -> & Ep). cbn beta in Ep. rewrite Ep in Hw. eauto.
Qed.

(** C69 *)
Lemma failed_stale t : sel t -> went_wrong (trace s) (addr t) -> p_retcode (job t) <> None ->
  last_run_bad f1 (job t).
Proof. intros Ht (o & He & Hc) Hr. exact (ended_bad t o Ht He Hc Hr). Qed.

(** C70 *)
Hypothesis Hrun : running (trace s) = [].
Hypothesis Hreads : reads_of_deps st ts filt job.
Hypothesis Hback : backed_by_files st ts filt job.
Hypothesis Hrc : forall t, sel t -> went_wrong (trace s) (addr t) -> p_retcode (job t) <> None.

Lemma how_ended n : ~ In (EBegin n) (trace s) \/ succeeded (trace s) n \/ went_wrong (trace s) n.
Proof.
  destruct (exec_facts _ _ _ _ _ _ Hexec) as (Hwf & _).
  destruct (in_dec Nat.eq_dec n (running (trace s))) as [H|H]; [rewrite Hrun in H; destruct H|].
  destruct (existsb (fun e => match e with EBegin m => m =? n | _ => false end) (trace s)) eqn:Eb.
  2:{ left. intros Hb. rewrite <- Bool.not_true_iff_false in Eb. apply Eb. apply existsb_exists.
      eexists. split; [exact Hb|apply Nat.eqb_refl]. }
  right. destruct (existsb (fun e => match e with EEnd m _ => m =? n | _ => false end) (trace s)) eqn:Ee.
  - apply existsb_exists in Ee. destruct Ee as (e & He & Hn). destruct e as [| | | | | | | |m o| | | | | |]; try discriminate.
    apply Nat.eqb_eq in Hn. subst m. destruct (Z.eq_dec (job_code o) 0); [left|right]; exists o; auto.
  - exfalso. apply H. apply (running_meaning c z s (trace s) [] n Hwf HR); [symmetry; apply app_nil_r|].
    split.
    + apply existsb_exists in Eb. destruct Eb as (e & He & Hn). destruct e; try discriminate.
      apply Nat.eqb_eq in Hn. subst. exact He.
    + intros (o & Ho). rewrite <- Bool.not_true_iff_false in Ee. apply Ee. apply existsb_exists.
      eexists. split; [exact Ho|apply Nat.eqb_refl].
Qed.

Lemma deps_inval t u : sel t -> clos_trans tid (depends_on st) t u -> clos_refl_trans tid (selected_inval st ts filt) t u.
Proof.
  intros Ht H. apply clos_trans_t1n in H. induction H as [x y H|x y w H _ IH].
  - apply rt_step. split; [exact Ht|]. split; [eapply sel_dep; eassumption|]. left. exact H.
  - eapply rt_trans; [apply rt_step|apply IH; eapply sel_dep; eassumption].
    split; [exact Ht|]. split; [eapply sel_dep; eassumption|]. left. exact H.
Qed.

Notation must f := (must_run st ts filt f job).
Lemma must_stale f x : stale f (job x) -> must f x.
Proof. intros H. exists x. split; [apply rt_refl|exact H]. Qed.

Lemma stale_stays x : sel x -> stale f0 (job x) -> succeeded (trace s) (addr x) \/ must f1 x.
Proof.
  intros Hx Hst. destruct (how_ended (addr x)) as [Hb|[Hs|Hw]]; [|auto|].
  2:{ right. apply must_stale. left. apply failed_stale; auto. }
  right. pose proof (untouched x) as U.
  assert (Uo : forall o, In o (p_output (job x)) -> f1 o = f0 o).
  { intros o Ho. apply U; auto. apply in_app_iff. auto. }
  destruct Hst as [(rf & Er & H)|[H|[(o & Ho & H)|(o & i & xo & xi & Ho & Hi & Eo & Ei & Hle)]]].
  - apply must_stale. left. exists rf. split; [exact Er|]. rewrite (U rf Hx Hb); [exact H|].
    apply in_app_iff. right. rewrite Er. cbn. auto.
  - apply must_stale. right. left. exact H.
  - apply must_stale. right. right. left. exists o. split; [exact Ho|]. rewrite Uo; assumption.
  - destruct (file_eq (f1 i) (f0 i)) as [E|N].
    + apply must_stale. right. right. right. exists o, i, xo, xi. rewrite Uo, E by exact Ho. auto.
    + destruct (changed_by i N) as (w & Hw & Hwi & Hbw).
      destruct (how_ended (addr w)) as [Hn|[(o' & He & Hc)|Hn]]; [contradiction| |].
      * destruct (ended_ok w o' i Hw He Hc Hwi) as (y & Ey & Hy).
        apply must_stale. right. right. right. exists o, i, xo, y. rewrite Uo by exact Ho.
        repeat split; auto. exact (Hy o xo Eo).
      * exists w. split; [apply deps_inval; [exact Hx|eapply Hreads; eassumption]|].
        left. apply failed_stale; auto.
Qed.

Lemma must_stays t : sel t -> must f0 t -> succeeded (trace s) (addr t) \/ must f1 t.
Proof.
  intros Ht (u & Htu & Hu). apply clos_rt_rt1n in Htu. revert Ht.
  induction Htu as [x|x y u Hxy Hyu IH]; intros Hx; [apply stale_stays; assumption|].
  assert (Hy : sel y) by apply Hxy.
  destruct (how_ended (addr x)) as [Hb|[Hs|Hw]]; [|auto|].
  2:{ right. apply must_stale. left. apply failed_stale; auto. }
  right. destruct (IH Hu Hy) as [(o & He & Hc)|(v & Hyv & Hv)].
  2:{ exists v. split; [|exact Hv]. eapply rt_trans; [apply rt_step; exact Hxy|exact Hyv]. }
  destruct (Hback x y Hxy) as (q & Hq & Hi).
  destruct (ended_ok y o q Hy He Hc) as (yq & Eq & Hyq). { apply in_app_iff. auto. }
  apply must_stale. right. destruct (p_output (job x)) as [|a os] eqn:Eo; [left; exact Eo|].
  assert (Ea : f1 a = f0 a).
  { apply (untouched x a Hx Hb). apply in_app_iff. left. rewrite Eo. cbn. auto. }
  destruct (f0 a) as [xa|] eqn:Exa.
  - right. right. exists a, q, xa, yq. rewrite Eo. split; [cbn; auto|]. split; [exact Hi|]. split; [exact Ea|].
    split; [exact Eq|]. exact (Hyq a xa Exa).
  - right. left. exists a. rewrite Eo. split; [cbn; auto|exact Ea].
Qed.
End Two.

(** ** Closed forms *)
Theorem failed_retried : forall fmt2 iv st ts filt job f0 addr c z s f1 addr2 c2 z2 s2 t w,
  execution_of st ts filt iv addr c -> reachable c z s -> own_files st ts filt job ->
  build_history (fun n => job (node_task (c_dag c) n)) f0 (trace s) f1 ->
  selected st ts filt t -> went_wrong (trace s) (addr t) -> p_retcode (job t) <> None ->
  execution_of st ts filt (process_checks fmt2 f1 job) addr2 c2 -> reachable c2 z2 s2 ->
  selected st ts filt w -> clos_refl_trans tid (selected_inval st ts filt) w t ->
  (forall r, In r (records (trace s2)) -> r_task r = w -> r_status r <> SKIP) /\
  (forall er, result s2 = RRecord er -> ~ In (EBegin (addr2 w)) (trace s2) ->
     exists b rb, clos_trans tid (depends_on st) w b /\ In rb (er_runs er) /\ r_task rb = b /\ r_status rb = FAIL).
Proof.
  intros fmt2 iv st ts filt job f0 addr c z s f1 addr2 c2 z2 s2 t w He HR Hown Hh Ht Hw Hrc He2 HR2 Hsw Hwt.
  pose proof (failed_stale st ts filt iv job f0 addr c He z s f1 HR Hh Hown t Ht Hw Hrc) as Hb.
  apply (invalid_never_skipped st ts filt _ addr2 c2 He2 z2 s2 w t
           (iv_log (is_invalidated fmt2 f1 (job t))) HR2 Hsw Hwt).
  unfold process_checks. rewrite (bad_run_noticed f1 (job t) Hb fmt2). reflexivity.
Qed.

Theorem build_resumed : forall fmt2 iv st ts filt job f0 addr c z s f1 addr2 c2 z2 s2 er2,
  execution_of st ts filt iv addr c -> reachable c z s -> running (trace s) = [] ->
  build_history (fun n => job (node_task (c_dag c) n)) f0 (trace s) f1 ->
  own_files st ts filt job -> reads_of_deps st ts filt job -> backed_by_files st ts filt job ->
  (forall t, selected st ts filt t -> went_wrong (trace s) (addr t) -> p_retcode (job t) <> None) ->
  (forall t, selected st ts filt t -> detectable f1 (job t)) ->
  execution_of st ts filt (process_checks fmt2 f1 job) addr2 c2 -> reachable c2 z2 s2 ->
  result s2 = RRecord er2 ->
  forall t, selected st ts filt t -> must_run st ts filt f0 job t ->
    succeeded (trace s) (addr t) \/ In (EBegin (addr2 t)) (trace s2) \/
    exists b rb, clos_trans tid (depends_on st) t b /\ In rb (er_runs er2) /\ r_task rb = b /\ r_status rb = FAIL.
Proof.
  intros fmt2 iv st ts filt job f0 addr c z s f1 addr2 c2 z2 s2 er2 He HR Hrun Hh Hown Hreads Hback Hrc Hdet He2 HR2 Hres t Ht Hm.
  destruct (must_stays st ts filt iv job f0 addr c He z s f1 HR Hh Hown Hrun Hreads Hback Hrc t Ht Hm) as [H|(u & Htu & Hu)];
    [left; exact H|right].
  assert (Hsu : selected st ts filt u).
  { apply clos_rt_rtn1 in Htu. destruct Htu as [|y u (_ & Hs & _)]; assumption. }
  destruct (invalid_never_skipped st ts filt _ addr2 c2 He2 z2 s2 t u
           (iv_log (is_invalidated fmt2 f1 (job u))) HR2 Ht Htu) as (_ & H).
  { unfold process_checks. rewrite (stale_noticed fmt2 f1 (job u) (Hdet u Hsu) Hu). reflexivity. }
  destruct (existsb (fun e => match e with EBegin m => m =? addr2 t | _ => false end) (trace s2)) eqn:Eb.
  - left. apply existsb_exists in Eb. destruct Eb as (e & Hin & Hn). destruct e; try discriminate.
    apply Nat.eqb_eq in Hn. subst. exact Hin.
  - right. apply (H er2 Hres). intros Hb. rewrite <- Bool.not_true_iff_false in Eb. apply Eb. apply existsb_exists.
    eexists. split; [exact Hb|apply Nat.eqb_refl].
Qed.

Theorem edit_rebuilds : forall fmt fmt2 st ts filt job f0 addr c z s er f1 f2 addr2 c2 z2 s2 er2,
  execution_of st ts filt (process_checks fmt f0 job) addr c ->
  declares_files st ts filt f0 job -> (forall t, selected st ts filt t -> detectable f0 (job t)) ->
  (forall t, selected st ts filt t -> p_output (job t) <> []) ->
  reachable c z s -> result s = RRecord er -> (forall r, In r (er_runs er) -> r_status r <> FAIL) ->
  file_history (fun n => job (node_task (c_dag c) n)) f0 (trace s) f1 ->
  edited f1 f2 -> (forall t q, selected st ts filt t -> In q (writes (job t)) -> f2 q = f1 q) ->
  execution_of st ts filt (process_checks fmt2 f2 job) addr2 c2 -> reachable c2 z2 s2 ->
  result s2 = RRecord er2 -> (forall r, In r (er_runs er2) -> r_status r <> FAIL) ->
  forall t, selected st ts filt t ->
    (In (EBegin (addr2 t)) (trace s2) <->
     exists u i, clos_refl_trans tid (selected_inval st ts filt) t u /\ In i (p_input (job u)) /\ f2 i <> f1 i).
Proof.
  intros fmt fmt2 st ts filt job f0 addr c z s er f1 f2 addr2 c2 z2 s2 er2 He Hd Hdet Hout HR Hres Hok Hh Hed Hw He2 HR2 Hres2 Hok2 t Ht.
  destruct (set_incremental st ts filt _ addr2 c2 He2 z2 s2 er2 HR2 Hres2 Hok2 t Ht) as (I1 & I2 & _).
  assert (Hsel : forall u, clos_refl_trans tid (selected_inval st ts filt) t u -> selected st ts filt u).
  { intros u Htu. apply clos_rt_rtn1 in Htu. destruct Htu as [|y u (_ & Hs & _)]; assumption. }
  assert (Hmade : forall u, selected st ts filt u -> made f1 (job u) /\ forall i, In i (p_input (job u)) -> f1 i <> None).
  { intros u Hu. exact (rebuild_made fmt st ts filt job f0 addr c z s er f1 He Hd Hdet HR Hres Hok Hh u Hu). }
  assert (Hin : forall u, selected st ts filt u -> p_input (job u) <> []).
  { intros u Hu. destruct (Hdet u Hu) as [H|[H _]]; [destruct (Hout u Hu H)|exact H]. }
  assert (Hchk : forall u, selected st ts filt u ->
    (iv_invalidated (is_invalidated fmt2 f2 (job u)) = true <-> exists i, In i (p_input (job u)) /\ f2 i <> f1 i)).
  { intros u Hu. destruct (Hmade u Hu) as (Mu & Mi). destruct (p_output (job u)) as [|o os] eqn:Eo; [destruct (Hout u Hu Eo)|].
    assert (Wo : forall o, In o (p_output (job u)) -> f2 o = f1 o).
    { intros q Hq. apply (Hw u q Hu). apply in_app_iff. auto. }
    assert (Ho : In o (p_output (job u))) by (rewrite Eo; cbn; auto).
    split.
    - intros Hiv. destruct (List.Exists_dec (fun i => f2 i <> f1 i) (p_input (job u))) as [H|H].
      + intros i. assert (D : {f2 i = f1 i} + {f2 i <> f1 i}).
        { decide equality. decide equality; [apply Bool.bool_dec|apply String.string_dec|apply Z.eq_dec]. }
        destruct D; [right; intros X; contradiction|left; assumption].
      + apply Exists_exists in H. exact H.
      + exfalso. assert (Hsame : forall i, In i (p_input (job u)) -> f2 i = f1 i).
        { intros i Hi. destruct (file_eq (f2 i) (f1 i)) as [E|N]; [exact E|].
          exfalso. apply H. apply Exists_exists. eauto. }
        rewrite (made_not_noticed fmt2 f2 (job u)) in Hiv; [discriminate|congruence|apply Hin, Hu| |].
        * apply (made_eq f2 f1); [|exact Mu]. intros q [Hq|Hq]; [apply (Hw u q Hu Hq)|apply Hsame, Hq].
        * intros i Hi. rewrite Hsame by exact Hi. apply Mi, Hi.
    - intros (i & Hi & N). apply stale_noticed.
      + right. split; [apply Hin, Hu|]. intros (o' & Ho' & En). exfalso. rewrite Wo in En by exact Ho'.
        exact (proj1 (proj2 Mu) o' Ho' En).
      + right. right. right. destruct (Hed i N) as (x & Ex & Hx).
        destruct (f1 o) as [y|] eqn:Ey; [|destruct (proj1 (proj2 Mu) o Ho Ey)].
        exists o, i, y, x. rewrite Wo by exact Ho. repeat split; auto. exact (Hx o y Ey). }
  assert (Hti : task_invalidated st ts filt (process_checks fmt2 f2 job) t <->
     exists u i, clos_refl_trans tid (selected_inval st ts filt) t u /\ In i (p_input (job u)) /\ f2 i <> f1 i).
  { split.
    - intros (u & lg & Htu & Hu). unfold process_checks in Hu.
      assert (Hiv : iv_invalidated (is_invalidated fmt2 f2 (job u)) = true) by congruence.
      apply (Hchk u (Hsel u Htu)) in Hiv. destruct Hiv as (i & Hi & N). exists u, i. auto.
    - intros (u & i & Htu & Hi & N). exists u. eexists. split; [exact Htu|]. unfold process_checks.
      rewrite (proj2 (Hchk u (Hsel u Htu)) (ex_intro _ i (conj Hi N))). reflexivity. }
  rewrite <- Hti. split; [|exact I1]. intros Hb.
  destruct (set_invalidated st ts filt _ addr2 c2 He2 t Ht) as (S1 & _). apply S1.
  destruct (exec_facts _ _ _ _ _ _ He2) as (Hwf & _).
  apply trace_in in Hb. apply (begin_launch c2 _ _ (r_log c2 z2 s2 Hwf HR2)) in Hb.
  destruct (log_in c2 _ _ (r_log c2 z2 s2 Hwf HR2) Hb) as (l1 & l2 & _ & [Hev _] & _). cbn [ev_cond] in Hev. apply Hev.
Qed.

(** ** Runs of processes *)
Lemma failed_run_noted p e f0 rf o f1 code :
  p_retcode p = Some rf -> process_run p e f0 = (o, f1) ->
  is_int code -> completed e code -> code <> 0%Z -> sb_remove_throws e = None ->
  last_run_bad f1 p.
Proof.
  intros Hrf H Hi Hc Hn Ht.
  destruct Hc as (H1 & H2 & H3 & H4). unfold process_run, ec_set in H. rewrite H1, H2 in H.
  destruct (sb_exit e) as [cd ec]. cbn in H3, H4. subst cd. rewrite H4 in H. cbn in H.
  rewrite Hrf, Ht in H. exists rf. split; [exact Hrf|].
  destruct (sb_can_create e); inversion H; subst; unfold fs_set; rewrite !String.eqb_refl; [right|left; reflexivity].
  eexists. split; [reflexivity|]. unfold read_retcode. cbn. rewrite read_int_dec by exact Hi. exact Hn.
Qed.
Lemma successful_run_dated p e f0 f o f1 :
  process_run p e f0 = (o, f1) -> job_code o = 0%Z ->
  (forall q, In q (p_output p) -> exists x, sb_fs e q = Some x /\ forall q0 y, f q0 = Some y -> (f_time y <= f_time x)%Z) ->
  (forall q0 y, f q0 = Some y -> (f_time y <= sb_now e)%Z) ->
  (forall rf, p_retcode p = Some rf -> sb_can_create e = true) ->
  dated_since f f1 p.
Proof.
  intros H Hc Ho Hnow Hcc q Hq. unfold process_run, ec_set in H.
  destruct (ec_value (sb_start e) =? 0)%Z eqn:E1; cbn [negb] in H.
  2:{ inversion H; subst. cbn in Hc. apply Z.eqb_neq in E1. contradiction. }
  destruct (ec_value (sb_drain e) =? 0)%Z eqn:E2; cbn [negb] in H.
  2:{ inversion H; subst. cbn in Hc. apply Z.eqb_neq in E2. contradiction. }
  destruct (sb_exit e) as [code ec]. destruct (ec_value ec =? 0)%Z eqn:E3; cbn [negb] in H.
  2:{ inversion H; subst. cbn in Hc. apply Z.eqb_neq in E3. contradiction. }
  unfold writes in Hq. apply in_app_iff in Hq. destruct (p_retcode p) as [rf|] eqn:Er.
  - destruct (sb_remove_throws e); [inversion H; subst; discriminate Hc|]. rewrite (Hcc rf eq_refl) in H.
    inversion H; subst. unfold fs_set. destruct (String.eqb_spec q rf) as [->|N].
    + eexists. split; [reflexivity|]. cbn. exact Hnow.
    + destruct Hq as [Hq|[<-|[]]]; [apply Ho, Hq|congruence].
  - inversion H; subst. destruct Hq as [Hq|[]]. apply Ho, Hq.
Qed.
