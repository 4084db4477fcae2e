(** The use of job objects, and graphs filled by several calls of insert_set. *)
From Coq Require Import Lia String Relations Permutation.
From Verif Require Import Model.Common Model.Records Model.Jobs Model.TaskSet Model.Dag
     Model.Sched Model.Exec Model.ExecSet Spec.Graph Spec.Trace Spec.Tasks Spec.JobUse
     Proofs.Sets Proofs.TraceFacts Proofs.BuildFacts Proofs.BuildProps Proofs.ExecInv Proofs.ExecStep
     Proofs.ExecCtl Proofs.LogFacts Proofs.ExecProps Proofs.ExecProps2 Proofs.ExecProps3
     Proofs.ExecProps4 Proofs.Asked Proofs.SetExec.
Open Scope string_scope.
Open Scope nat_scope.
Open Scope list_scope.

Lemma job_calls_app g t a b : job_calls g t (a ++ b) = job_calls g t a ++ job_calls g t b.
Proof.
  induction a as [|e a IH]; [reflexivity|]. cbn. destruct (job_use e) as [[n k]|]; [|exact IH].
  destruct (node_task g n =? t); cbn; now rewrite IH.
Qed.

Section Calls.
Variable c : config.
Variable n : nid.
Let g := c_dag c.
Let t := node_task g n.
Hypothesis only : forall m, In m (node_ids g) -> node_task g m = t -> m = n.

Lemma begin_ask log m : log_ok c log -> In (EBegin m) log -> In (EAsk m) log.
Proof.
  intros L H. apply begin_launch with (c := c) in H; [|exact L].
  pose proof (launch_ids c _ _ L H) as Hm.
  apply launch_before with (c := c) in H; [|exact L]. destruct H as [er H].
  destruct (before_startup c _ er m L H) as [A _]. destruct (A m Hm) as (_ & v & x & Hi).
  eapply inval_ask; eassumption.
Qed.

Definition calls_so_far (log : list event) : Prop :=
  (job_calls g t (rev log) = [] /\ ~ In (EAsk n) log) \/
  (job_calls g t (rev log) = [CallAsk] /\ In (EAsk n) log /\ ~ In (EBegin n) log) \/
  (job_calls g t (rev log) = [CallAsk; CallBegin] /\ In (EBegin n) log /\ ~ ended_l log n) \/
  (job_calls g t (rev log) = [CallAsk; CallBegin; CallEnd] /\ ended_l log n).

Lemma log_calls log : log_ok c log -> calls_so_far log.
Proof.
  induction log as [|e log IH]; intros L.
  { left. split; [reflexivity|intros []]. }
  pose proof L as L0. destruct L as [[He _] L]. specialize (IH L). unfold calls_so_far in *.
  cbn [rev]. rewrite job_calls_app.
  assert (Hother : (forall k, job_use e <> Some (n, k)) -> job_calls g t [e] = [] ->
            (job_calls g t (rev log) ++ job_calls g t [e] = [] /\ ~ In (EAsk n) (e :: log)) \/
            (job_calls g t (rev log) ++ job_calls g t [e] = [CallAsk] /\ In (EAsk n) (e :: log) /\ ~ In (EBegin n) (e :: log)) \/
            (job_calls g t (rev log) ++ job_calls g t [e] = [CallAsk; CallBegin] /\ In (EBegin n) (e :: log) /\ ~ ended_l (e :: log) n) \/
            (job_calls g t (rev log) ++ job_calls g t [e] = [CallAsk; CallBegin; CallEnd] /\ ended_l (e :: log) n)).
  { intros Hu E. rewrite E, app_nil_r.
    assert (N1 : e <> EAsk n) by (intros ->; now apply (Hu CallAsk)).
    assert (N2 : e <> EBegin n) by (intros ->; now apply (Hu CallBegin)).
    assert (N3 : forall o, e <> EEnd n o) by (intros o ->; now apply (Hu CallEnd)).
    destruct IH as [[-> H]|[[-> H]|[[-> H]|[-> H]]]].
    - left. split; [reflexivity|]. intros [X|X]; tauto.
    - right; left. split; [reflexivity|]. split; [right; apply H|]. intros [X|X]; tauto.
    - right; right; left. split; [reflexivity|]. split; [right; apply H|].
      intros [o [X|X]]; [eapply N3; exact X|]. apply (proj2 H). exists o. exact X.
    - right; right; right. split; [reflexivity|]. destruct H as [o H]. exists o. now right. }
  assert (Hm : forall m k, job_use e = Some (m, k) -> In m (node_ids g) -> m <> n ->
               (forall k, job_use e <> Some (n, k)) /\ job_calls g t [e] = []).
  { intros m k E Hin Hne. split; [intros k' E'; congruence|]. cbn. rewrite E.
    destruct (Nat.eqb_spec (node_task g m) t) as [E'|_]; [|reflexivity]. exfalso. auto. }
  assert (Hself : job_calls g t [EAsk n] = [CallAsk] /\ job_calls g t [EBegin n] = [CallBegin] /\
                  forall o, job_calls g t [EEnd n o] = [CallEnd]).
  { unfold t. cbn. rewrite !Nat.eqb_refl. auto. }
  destruct Hself as (S1 & S2 & S3).
  destruct e as [| | | | | | |m|m o| | | | | |m]; try (apply Hother; [intros k; discriminate|reflexivity]).
  - destruct (Nat.eq_dec m n) as [->|Hne].
    + cbn [ev_cond] in He. rewrite S2. destruct He as (Hl & Hnb & _).
      assert (Ha : In (EAsk n) log).
      { assert (Ha : In (EAsk n) (EBegin n :: log)) by (apply begin_ask; [exact L0|left; reflexivity]).
        destruct Ha as [Ha|Ha]; [discriminate|exact Ha]. }
      destruct IH as [[_ H]|[[-> H]|[[_ H]|[_ [o H]]]]].
      * tauto.
      * right; right; left. split; [reflexivity|]. split; [left; reflexivity|].
        intros [o [X|X]]; [discriminate|]. apply end_begin with (c := c) in X; [tauto|exact L].
      * tauto.
      * apply end_begin with (c := c) in H; [tauto|exact L].
    + assert (Hi : In m (node_ids g)) by (cbn [ev_cond] in He; eapply launch_ids; [exact L|apply He]).
      destruct (Hm m CallBegin eq_refl Hi Hne) as [A B]. now apply Hother.
  - destruct (Nat.eq_dec m n) as [->|Hne].
    + cbn [ev_cond] in He. rewrite S3. destruct He as (Hb & Hne & _).
      assert (Ha : In (EAsk n) log) by (apply begin_ask; assumption).
      destruct IH as [[_ H]|[[_ H]|[[-> H]|[_ H]]]]; try tauto.
      right; right; right. split; [reflexivity|]. exists o. left. reflexivity.
    + assert (Hi : In m (node_ids g)).
      { cbn [ev_cond] in He. eapply launch_ids; [exact L|]. eapply begin_launch; [exact L|apply He]. }
      destruct (Hm m CallEnd eq_refl Hi Hne) as [A B]. now apply Hother.
  - destruct (Nat.eq_dec m n) as [->|Hne].
    + cbn [ev_cond] in He. rewrite S1. destruct He as (_ & Hna & Hj & _).
      assert (Hnb : ~ In (EBegin n) log).
      { intros X. apply begin_ask in X; [tauto|exact L]. }
      destruct IH as [[-> H]|[[_ H]|[[_ H]|[_ [o H]]]]]; try tauto.
      * right; left. split; [reflexivity|]. split; [left; reflexivity|]. intros [X|X]; [discriminate|tauto].
      * apply end_begin with (c := c) in H; [tauto|exact L].
    + assert (Hi : In m (node_ids g)) by (cbn [ev_cond] in He; apply He).
      destruct (Hm m CallAsk eq_refl Hi Hne) as [A B]. now apply Hother.
Qed.
End Calls.

Lemma calls_once : forall c z s n,
  wf_dag (c_dag c) -> reachable c z s ->
  (forall m, In m (node_ids (c_dag c)) -> node_task (c_dag c) m = node_task (c_dag c) n -> m = n) ->
  begins_with one_use (job_calls (c_dag c) (node_task (c_dag c) n) (trace s)).
Proof.
  intros c z s n Hwf HR Hu. pose proof (log_calls c n Hu _ (r_log c z s Hwf HR)) as H.
  unfold calls_so_far in H. change (rev (s_log s)) with (trace s) in H.
  destruct H as [[-> _]|[[-> _]|[[-> _]|[-> _]]]].
  - now exists one_use.
  - now exists [CallBegin; CallEnd].
  - now exists [CallEnd].
  - now exists [].
Qed.

Lemma calls_finished : forall c z s er r,
  wf_dag (c_dag c) -> reachable c z s -> result s = RRecord er -> In r (er_runs er) ->
  (forall m, In m (node_ids (c_dag c)) -> node_task (c_dag c) m = r_task r -> m = r_node r) ->
  job_calls (c_dag c) (r_task r) (trace s) =
  match r_status r with OK | FAIL => one_use | SKIP | DEPF => [CallAsk] end.
Proof.
  intros c z s er r Hwf HR H Hr Hu. set (n := r_node r) in *.
  assert (Et : r_task r = node_task (c_dag c) n) by (apply (proj2 (recorded_once c z s er Hwf HR H) r Hr)).
  rewrite Et in *. pose proof (log_calls c n Hu _ (r_log c z s Hwf HR)) as K.
  unfold calls_so_far in K. change (rev (s_log s)) with (trace s) in K.
  assert (Hn : In n (node_ids (c_dag c))).
  { destruct (recorded_once c z s er Hwf HR H) as [P _]. eapply Permutation_in; [exact P|]. now apply in_map. }
  assert (Ha : In (EAsk n) (s_log s)) by (apply in_rev; eapply ask_all; eassumption).
  assert (Hi : In r (recs (s_log s))) by (rewrite recs_trace, <- (finished_runs c z s Hwf HR er H); exact Hr).
  destruct (rec_at c _ _ (r_log c z s Hwf HR) Hi) as [l1 [er' [x [l2 [E [He L2]]]]]]. cbn [ev_cond] in He.
  destruct He as (_ & _ & _ & _ & _ & Hok & _). destruct Hok as (_ & _ & Hok).
  assert (Hex : r_status r = OK \/ r_status r = FAIL -> ended_l (s_log s) n).
  { intros Hs. assert (X : exists o, In (EEnd n o) l2).
    { destruct Hs as [Hs|Hs]; rewrite Hs in Hok; destruct Hok as (_ & _ & _ & o & Ho & _); exists o; exact Ho. }
    destruct X as [o Ho]. exists o. rewrite E. apply in_app_iff. right; right. exact Ho. }
  assert (Hnb : r_status r = SKIP \/ r_status r = DEPF -> ~ In (EBegin n) (s_log s)).
  { intros Hs X. eapply (not_executed_when_blocked c z s r); [exact Hwf|exact HR| |exact Hs|].
    - rewrite <- recs_trace. exact Hi.
    - apply -> in_rev. exact X. }
  assert (Hee : ended_l (s_log s) n -> In (EBegin n) (s_log s)).
  { intros [o Ho]. eapply end_begin; [apply (r_log c z s Hwf HR)|exact Ho]. }
  destruct K as [[_ K]|[[-> K]|[[-> K]|[-> K]]]]; [tauto|..]; destruct (r_status r); try reflexivity; tauto.
Qed.

(** ** Executions of task sets *)
Section OfSet.
Variable st : store.
Variable ts : task_set.
Variable filt : string.
Variable iv : tid -> Sched.inval_answer.
Variable addr : tid -> nid.
Variable c : config.
Hypothesis Hexec : execution_of st ts filt iv addr c.

Lemma set_unique t m : selected st ts filt t -> In m (node_ids (c_dag c)) -> node_task (c_dag c) m = t -> m = addr t.
Proof.
  destruct (exec_facts st ts filt iv addr c Hexec) as (_ & _ & _ & Hn & Hs & _).
  intros Ht Hm E. destruct (Hs m Hm) as (u & Hu & ->). destruct (Hn u Hu) as (_ & E' & _). congruence.
Qed.

Theorem set_calls_once z s t :
  reachable c z s ->
  begins_with one_use (job_calls (c_dag c) t (trace s)) /\
  (job_calls (c_dag c) t (trace s) <> [] -> selected st ts filt t).
Proof.
  intros HR. destruct (exec_facts st ts filt iv addr c Hexec) as (Hwf & _ & _ & Hn & Hs & _).
  assert (X : job_calls (c_dag c) t (trace s) <> [] -> selected st ts filt t).
  { intros H. pose proof (r_log c z s Hwf HR) as L.
    assert (Y : exists n k e, In e (trace s) /\ job_use e = Some (n, k) /\ node_task (c_dag c) n = t).
    { clear -H. induction (trace s) as [|e tr IH]; [tauto|]. cbn in H.
      destruct (job_use e) as [[n k]|] eqn:E.
      - destruct (Nat.eqb_spec (node_task (c_dag c) n) t) as [E'|_].
        + exists n, k, e. cbn. auto.
        + destruct (IH H) as (n' & k' & e' & ? & ? & ?). exists n', k', e'. cbn. auto.
      - destruct (IH H) as (n' & k' & e' & ? & ? & ?). exists n', k', e'. cbn. auto. }
    destruct Y as (n & k & e & Hin & Hu & <-). apply in_rev in Hin.
    assert (Hi : In n (node_ids (c_dag c))).
    { destruct (log_in c _ _ L Hin) as [l1 [l2 [_ [[He _] L2]]]].
      destruct e; inversion Hu; subst; cbn [ev_cond] in He.
      - eapply launch_ids; [exact L2|apply He].
      - eapply launch_ids; [exact L2|]. eapply begin_launch; [exact L2|apply He].
      - apply He. }
    destruct (Hs n Hi) as (u & Hu' & ->). destruct (Hn u Hu') as (_ & -> & _). exact Hu'. }
  split; [|exact X].
  destruct (job_calls (c_dag c) t (trace s)) as [|k l] eqn:E; [now exists one_use|].
  assert (Ht : selected st ts filt t) by (apply X; discriminate).
  rewrite <- E. destruct (Hn t Ht) as (_ & Et & _). rewrite <- Et. apply (calls_once c z s (addr t) Hwf HR).
  intros m Hm Em. rewrite Et in Em. now apply set_unique.
Qed.

Theorem set_calls_finished z s er r :
  reachable c z s -> result s = RRecord er -> In r (er_runs er) ->
  job_calls (c_dag c) (r_task r) (trace s) =
  match r_status r with OK | FAIL => one_use | SKIP | DEPF => [CallAsk] end.
Proof.
  intros HR H Hr. destruct (exec_facts st ts filt iv addr c Hexec) as (Hwf & _).
  eapply calls_finished; [exact Hwf|exact HR|exact H|exact Hr|].
  destruct (set_recorded_once st ts filt iv addr c Hexec z s er HR H) as (_ & Hsel & _ & Hnd).
  intros m Hm Em. rewrite (proj1 (Hnd r Hr)). apply set_unique; [|exact Hm|exact Em].
  apply Hsel. now apply in_map.
Qed.
End OfSet.

(** ** Graphs filled by several calls *)
Section Assembled.
Variable st : store.

Definition graph_facts (js : list insertion) (g : dag) : Prop :=
  wf_dag g /\ requires_after g /\ (forall a b, requires g a b -> inval_by g a b) /\
  (forall i t, In i js -> picks st i t ->
     In (i_addr i t) (node_ids g) /\ node_task g (i_addr i t) = t /\
     (forall p, holds (i_set i) p t -> node_name g (i_addr i t) = full_name p)) /\
  (forall n, In n (node_ids g) -> exists i t, In i js /\ picks st i t /\ n = i_addr i t) /\
  (forall i j t u, In i js -> In j js -> picks st i t -> picks st j u ->
     i_addr i t = i_addr j u -> i = j /\ t = u) /\
  (forall a b k, In (Edge a b k) (d_edges g) <->
     exists i x y, In i js /\ picks st i x /\ picks st i y /\ a = i_addr i x /\ b = i_addr i y /\
       (depends_on st x y \/ (k = AFTER /\ In y (t_run_after (st_get st x))) \/
        (k = INVALIDATED_BY /\ In y (t_invalidated_by (st_get st x))))).

Lemma lookup_app_old new old n :
  ~ In n (map n_id new) -> lookup_node (new ++ old) n = lookup_node old n.
Proof.
  induction new as [|x new IH]; cbn; [reflexivity|]. intros H.
  destruct (Nat.eqb_spec (n_id x) n) as [E|_]; [tauto|]. apply IH. tauto.
Qed.

Theorem assembled_facts js g : assembled st js g -> graph_facts js g.
Proof.
  induction 1 as [|js g i g' k ord1 ord2 HA IH Ho1 Ho2 Hord Hown Hfr Eb].
  { repeat apply conj.
    - constructor.
    - intros e [].
    - intros a b [].
    - intros a b [].
    - intros i t [].
    - intros n [].
    - intros i j t u [].
    - intros a b k. split; [intros []|]. intros (i & x & y & [] & _). }
  destruct IH as (Hwf & Hra & Hri & Hn & Hall & Hinj & He).
  assert (Hwf' : wf_dag g') by (eapply built_wf; eassumption).
  destruct (selects_exactly g st (i_set i) (i_filter i) (i_addr i) ord1 ord2 Ho1 Ho2 Hown g' k Eb)
    as (new & Hd & _ & Hs & Hx).
  assert (Hnew : forall n, In n (map n_id new) -> exists t, picks st i t /\ n = i_addr i t).
  { intros n Hin. apply in_map_iff in Hin. destruct Hin as (x & <- & Hin). exists (n_task x).
    split; [apply Hs; now apply in_map|apply (Hx x Hin)]. }
  assert (Hold : forall n, In n (node_ids g) -> lookup_node (d_nodes g') n = lookup_node (d_nodes g) n).
  { intros n Hin. rewrite Hd. apply lookup_app_old. intros X. destruct (Hnew n X) as (t & Ht & ->).
    exact (proj2 Hfr t Ht Hin). }
  split; [exact Hwf'|]. split; [eapply built_requires_after; eassumption|].
  split; [eapply built_requires_inval; eassumption|].
  split; [|split; [|split]].
  - intros j t [<-|Hj] Ht.
    + apply Hs in Ht. apply in_map_iff in Ht. destruct Ht as (x & <- & Hin). destruct (Hx x Hin) as (Hid & Hnm & _).
      assert (Hin' : In x (d_nodes g')) by (rewrite Hd; apply in_or_app; auto).
      pose proof (lookup_node_In (d_nodes g') x (proj1 Hwf') Hin') as Hl. rewrite Hid in Hl.
      unfold node_task, node_name. rewrite Hl. split; [|split; [reflexivity|exact Hnm]].
      rewrite <- Hid. unfold node_ids. now apply in_map.
    + destruct (Hn j t Hj Ht) as (H1 & H2 & H3). unfold node_task, node_name in *. rewrite (Hold _ H1).
      split; [|auto]. eapply built_nodes; [exact Ho1|exact Ho2|exact Eb|]. now left.
  - intros n Hin. eapply built_nodes in Hin; [|exact Ho1|exact Ho2|exact Eb]. destruct Hin as [Hin|(t & Ht & ->)].
    + destruct (Hall n Hin) as (j & t & Hj & Ht & ->). exists j, t. cbn. auto.
    + exists i, t. cbn. auto.
  - intros j1 j2 t u [<-|H1] [<-|H2] Ht Hu E.
    + split; [reflexivity|]. now apply (proj1 Hfr).
    + exfalso. apply (proj2 Hfr t Ht). rewrite E. apply Hn; assumption.
    + exfalso. apply (proj2 Hfr u Hu). rewrite <- E. apply Hn; assumption.
    + now apply Hinj.
  - intros a b kd. rewrite (built_edges g st (i_set i) (i_filter i) (i_addr i) ord1 ord2 Ho1 Ho2 g' k Eb).
    cbn [e_src e_tgt]. split.
    + intros [H|(t & Ht & [(d & H1 & H2 & H3)|[(d & H1 & H2 & H3)|(d & H1 & H2 & H3)]])].
      * apply He in H. destruct H as (j & x & y & Hj & H). exists j, x, y. cbn. tauto.
      * exists i, t, d. split; [now left|]. split; [exact Ht|]. split; [eapply sel_dep; eassumption|]. auto.
      * inversion H3; subst. exists i, t, d. cbn. auto 10.
      * inversion H3; subst. exists i, t, d. cbn. auto 10.
    + intros (j & x & y & [<-|Hj] & Hx' & Hy & -> & -> & H).
      * right. exists x. split; [exact Hx'|].
        destruct H as [H|[[-> H]|[-> H]]]; [left|right; left|right; right]; exists y; auto.
      * left. apply He. exists j, x, y. auto 10.
Qed.

Variable js : list insertion.
Variable g : dag.
Variable threads : nat.
Variable iv : tid -> Sched.inval_answer.
Hypothesis HA : assembled st js g.
Let c := exec_graph st g threads iv.

(** One record for each call that picks the task. *)
Theorem assembled_records z s er t l :
  reachable c z s -> result s = RRecord er ->
  NoDup l -> (forall i, In i l <-> In i js /\ picks st i t) ->
  List.length (filter (fun r => r_task r =? t) (er_runs er)) = List.length l.
Proof.
  intros HR H Hnd Hl. destruct (assembled_facts js g HA) as (Hwf & _ & _ & Hn & Hall & Hinj & _).
  destruct (recorded_once c z s er Hwf HR H) as [P Q].
  assert (HP : NoDup (map r_node (er_runs er))).
  { eapply Permutation_NoDup; [apply Permutation_sym; exact P|apply Hwf]. }
  rewrite <- (map_length (fun i => i_addr i t) l), <- (map_length r_node). apply Permutation_length.
  apply NoDup_Permutation.
  - clear -HP. induction (er_runs er) as [|r rs IH]; [constructor|]. cbn in *. inversion HP as [|? ? H1 H2]; subst.
    destruct (r_task r =? t); [cbn; constructor|]; auto. intros X. apply H1.
    apply in_map_iff in X. destruct X as (x & E & Hx). apply filter_In in Hx. rewrite <- E. now apply in_map.
  - assert (Hl' : forall i, In i l -> In i js /\ picks st i t) by (intros i; apply Hl). clear Hl.
    induction Hnd as [|i l Hi Hnd IH]; [constructor|]. cbn. constructor; [|apply IH; intros j Hj; apply Hl'; now right].
    intros X. apply in_map_iff in X. destruct X as (j & E & Hj).
    destruct (Hl' i (or_introl eq_refl)) as [Hi1 Hi2]. destruct (Hl' j (or_intror Hj)) as [Hj1 Hj2].
    destruct (Hinj j i t t Hj1 Hi1 Hj2 Hi2 E) as [-> _]. exact (Hi Hj).
  - intros n. rewrite !in_map_iff. split.
    + intros (r & <- & Hr). apply filter_In in Hr. destruct Hr as [Hr Et]. apply Nat.eqb_eq in Et.
      assert (Hin : In (r_node r) (node_ids g)) by (eapply Permutation_in; [exact P|now apply in_map]).
      destruct (Hall _ Hin) as (i & u & Hi & Hu & E). exists i.
      destruct (Hn i u Hi Hu) as (_ & Eu & _). destruct (Q r Hr) as [Er _]. cbn [c exec_graph c_dag] in Er.
      rewrite E, Eu in Er. assert (Eq : u = t) by congruence. rewrite Eq in *. split; [congruence|]. apply Hl. split; assumption.
    + intros (i & <- & Hi). apply Hl in Hi. destruct Hi as [Hi Ht]. destruct (Hn i t Hi Ht) as (Hin & Et & _).
      assert (Hin' : In (i_addr i t) (map r_node (er_runs er))) by (eapply Permutation_in; [apply Permutation_sym; exact P|exact Hin]).
      apply in_map_iff in Hin'. destruct Hin' as (r & E & Hr). exists r. split; [exact E|].
      apply filter_In. split; [exact Hr|]. apply Nat.eqb_eq. destruct (Q r Hr) as [Er _]. cbn [c exec_graph c_dag] in Er.
      rewrite E, Et in Er. exact Er.
Qed.

(** Within one call everything declared is respected. *)
Theorem assembled_order z s i a b pre post :
  reachable c z s -> In i js -> picks st i a -> picks st i b -> task_after st a b ->
  trace s = pre ++ EBegin (i_addr i a) :: post ->
  recorded pre (i_addr i b) /\
  (In (EBegin (i_addr i b)) pre -> exists o, In (EEnd (i_addr i b) o) pre) /\
  ~ In (EBegin (i_addr i b)) post.
Proof.
  intros HR Hi Ha Hb Hab E. destruct (assembled_facts js g HA) as (Hwf & _ & _ & _ & _ & _ & He).
  apply (run_after_order c z s (i_addr i a) (i_addr i b) pre post Hwf HR); [|exact E].
  apply He. exists i, a, b. destruct Hab; auto 10.
Qed.

Theorem assembled_failed z s i a b rb :
  reachable c z s -> In i js -> picks st i a -> clos_trans tid (depends_on st) a b ->
  In rb (records (trace s)) -> r_node rb = i_addr i b -> is_bad (r_status rb) = true ->
  ~ In (EBegin (i_addr i a)) (trace s).
Proof.
  intros HR Hi Ha Hab Hr Hn Hbad. destruct (assembled_facts js g HA) as (Hwf & Hra & _ & _ & _ & _ & He).
  assert (Hp : clos_trans nid (requires g) (i_addr i a) (i_addr i b)).
  { assert (Hs : forall x y, picks st i x -> depends_on st x y -> requires g (i_addr i x) (i_addr i y)).
    { intros x y Hx Hxy. apply He. exists i, x, y. split; [exact Hi|]. split; [exact Hx|]. split; [eapply sel_dep; eassumption|auto]. }
    clear Hr Hn. apply clos_trans_t1n in Hab. induction Hab as [a b Hab|a x b Hax _ IH].
    - apply t_step. auto.
    - eapply t_trans; [apply t_step; apply Hs; eassumption|]. apply IH. eapply sel_dep; eassumption. }
  apply (failed_blocks_dependants c z s (i_addr i a) (i_addr i b) rb Hwf Hra HR Hp Hr Hn Hbad).
Qed.

(** No task is picked twice: each job is used once. *)
Theorem assembled_disjoint z s :
  (forall i j t, In i js -> In j js -> picks st i t -> picks st j t -> i = j) ->
  reachable c z s ->
  (forall t, (exists i, In i js /\ picks st i t) -> begins_with one_use (job_calls g t (trace s))) /\
  (forall er, result s = RRecord er -> NoDup (map r_task (er_runs er))).
Proof.
  intros Hdis HR. destruct (assembled_facts js g HA) as (Hwf & _ & _ & Hn & Hall & Hinj & _). split.
  - intros t (i & Hi & Ht). destruct (Hn i t Hi Ht) as (_ & Et & _). rewrite <- Et.
    apply (calls_once c z s (i_addr i t) Hwf HR). cbn [c exec_graph c_dag].
    intros m Hm Em. rewrite Et in Em. destruct (Hall m Hm) as (j & u & Hj & Hu & ->).
    destruct (Hn j u Hj Hu) as (_ & Eu & _). assert (Eq : u = t) by congruence. rewrite Eq in *.
    now rewrite (Hdis i j t Hi Hj Ht Hu).
  - intros er H. destruct (recorded_once c z s er Hwf HR H) as [P Q].
    assert (HP : NoDup (map r_node (er_runs er))).
    { eapply Permutation_NoDup; [apply Permutation_sym; exact P|apply Hwf]. }
    assert (Hin : forall r, In r (er_runs er) -> In (r_node r) (node_ids g) /\ r_task r = node_task g (r_node r)).
    { intros r Hr. split; [eapply Permutation_in; [exact P|now apply in_map]|apply (Q r Hr)]. }
    clear P Q H. induction (er_runs er) as [|r rs IH]; [constructor|]. cbn in HP. inversion HP as [|? ? H1 H2]; subst.
    cbn. constructor; [|apply IH; [exact H2|intros x Hx; apply Hin; now right]].
    intros X. apply H1. apply in_map_iff in X. destruct X as (r' & E & Hr').
    destruct (Hin r (or_introl eq_refl)) as [A1 A2]. destruct (Hin r' (or_intror Hr')) as [B1 B2].
    destruct (Hall _ A1) as (i & t & Hi & Ht & Ei). destruct (Hall _ B1) as (j & u & Hj & Hu & Ej).
    rewrite Ei, (proj1 (proj2 (Hn i t Hi Ht))) in A2. rewrite Ej, (proj1 (proj2 (Hn j u Hj Hu))) in B2.
    assert (Eq : u = t) by congruence. rewrite Eq in *. rewrite (Hdis i j t Hi Hj Ht Hu) in Ei. rewrite Ei, <- Ej. now apply in_map.
Qed.
End Assembled.
