(** Executions that share one default visitor. *)
From Coq Require Import Lia String.
From Verif Require Import Model.Common Model.Records Model.Jobs Model.TaskSet Model.Dag
     Model.Sched Model.Exec Model.World Model.Text Model.Process Model.Format Model.Visitor Model.SharedVisitor
     Spec.Graph Spec.Trace Spec.World Spec.Tasks Spec.Report Spec.Shared
     Proofs.Sets Proofs.TraceFacts Proofs.ExecInv Proofs.ExecStep Proofs.SchedFacts
     Proofs.ExecCtl Proofs.LogFacts Proofs.ExecProps Proofs.ExecProps2 Proofs.ExecProps3
     Proofs.StepCases Proofs.Ticks Proofs.WorldFacts Proofs.VisitorFacts.
Open Scope nat_scope.
Open Scope list_scope.

Lemma lasting_app a b : lasting (a ++ b) = lasting a ++ lasting b.
Proof. apply filter_app. Qed.

(** The nodes a callback is about. *)
Definition own (e : event) : list nid :=
  match e with
  | EEnque n | EInval n _ _ | ERunLog n _ | EBeforeRun _ n => [n]
  | ECycle l => l
  | EDepInval n m => [n; m]
  | _ => []
  end.

Lemma chain_ids d x r : wf_dag d -> In x (node_ids d) -> chain (runs_after d) x r -> incl r (node_ids d).
Proof.
  intros Hwf. revert x. induction r as [|y r IH]; intros x Hx H a Ha; [destruct Ha|].
  cbn in H. destruct H as [H1 H2]. assert (Hy : In y (node_ids d)) by (apply Hwf in H1; apply H1).
  destruct Ha as [<-|Ha]; [exact Hy|]. exact (IH y Hy H2 a Ha).
Qed.

Lemma own_ids c log e : wf_dag (c_dag c) -> log_ok c (e :: log) -> incl (own e) (node_ids (c_dag c)).
Proof.
  intros Hwf [[He _] L]. destruct e as [n|l|n v t|n m|er|er n|n|n|n o|n|n t|er r x|er| |n]; cbn [own ev_cond] in *;
    try solve [intros a []].
  - intros a [<-|[]]. apply He.
  - destruct He as (He & _). destruct l as [|x r]; [intros a []|]. destruct He as (_ & H1 & H2).
    assert (Hx : In x (node_ids (c_dag c))) by (apply Hwf in H2; apply H2).
    intros a [<-|Ha]; [exact Hx|]. exact (chain_ids _ x r Hwf Hx H1 a Ha).
  - intros a [<-|[]]. apply He.
  - destruct He as (He & _). apply Hwf in He. intros a [<-|[<-|[]]]; apply He.
  - intros a [<-|[]]. apply He.
  - destruct He as (_ & _ & _ & o & Ho & _). intros a [<-|[]].
    eapply launch_ids; [exact L|]; eapply begin_launch; [exact L|]; eapply end_begin; eassumption.
Qed.

Lemma look_ids c n : In n (node_ids (c_dag c)) -> exists x, look_dag c n = Some x /\ vn_name x = node_name (c_dag c) n.
Proof.
  intros H. destruct (lookup_in _ _ H) as [y Hy]. destruct (lookup_task c n y Hy) as [_ E].
  eexists. unfold look_dag. rewrite Hy. split; [reflexivity|]. cbn. congruence.
Qed.

(** What is printed for an event, but for the status lines. *)
Definition report (c : config) (vb : bool) (e : event) : list item :=
  match visit (look_dag c) (c_task c) (Vis vb []) e with VOk _ o => lasting o | VDangling _ => [] end.

Lemma visit_report c vb look q e v o :
  (forall n x, look_dag c n = Some x -> look n = Some x) -> incl (own e) (node_ids (c_dag c)) ->
  visit look (c_task c) (Vis vb q) e = VOk v o -> lasting o = report c vb e.
Proof.
  intros HL HO E. unfold report.
  assert (H1 : forall n, In n (own e) -> exists x, look_dag c n = Some x /\ look n = Some x).
  { intros n Hn. destruct (look_ids c n (HO n Hn)) as (x & Hx & _). exists x. auto. }
  destruct e as [n|l|n i t|n m|er|er n|n|n|n o'|n|n t|er r x|er| |n]; cbn [visit own v_verbose v_queued] in *; unfold with_node in *;
    try (injection E as _ <-; reflexivity).
  - destruct (H1 n (or_introl eq_refl)) as (x & Hx & Hx'). rewrite Hx in *. rewrite Hx' in E. injection E as _ <-. reflexivity.
  - injection E as _ <-. cbn. do 2 f_equal. apply map_ext_in. intros n Hn. destruct (H1 n Hn) as (x & -> & ->). reflexivity.
  - destruct (H1 n (or_introl eq_refl)) as (x & Hx & Hx'). rewrite Hx in *. rewrite Hx' in E. injection E as _ <-. reflexivity.
  - destruct (H1 n (or_introl eq_refl)) as (x & Hx & Hx'). destruct (H1 m (or_intror (or_introl eq_refl))) as (y & Hy & Hy').
    rewrite Hx, Hy in *. rewrite Hx', Hy' in E. injection E as _ <-. reflexivity.
  - destruct (H1 n (or_introl eq_refl)) as (x & Hx & Hx'). rewrite Hx in *. rewrite Hx' in E.
    destruct (negb (vn_hidden x) || vb); injection E as _ <-; reflexivity.
  - destruct (H1 n (or_introl eq_refl)) as (x & Hx & Hx'). rewrite Hx in *. rewrite Hx' in E. injection E as _ <-. reflexivity.
  - cbn [set_erase filter]. destruct (set_erase x q) as [|m q'].
    + injection E as _ <-. reflexivity.
    + destruct (look m) as [y|]; [|discriminate]. injection E as _ <-. rewrite lasting_app. cbn. apply app_nil_r.
Qed.

(** Alone. *)
Lemma watch_report c vb look : (forall n x, look_dag c n = Some x -> look n = Some x) ->
  wf_dag (c_dag c) -> forall es log q v o, log_ok c (rev es ++ log) ->
  watch look (c_task c) (Vis vb q) es = VOk v o -> lasting o = flat_map (report c vb) es.
Proof.
  intros HL Hwf. induction es as [|e es IH]; intros log q v o L E; cbn [watch] in E.
  - injection E as _ <-. reflexivity.
  - cbn [rev] in L. rewrite <- app_assoc in L. cbn [app] in L.
    pose proof (own_ids c log e Hwf (log_ok_app c _ _ L)) as HO.
    destruct (visit look (c_task c) (Vis vb q) e) as [v1 o1|] eqn:E1; [|discriminate].
    assert (exists q1, v1 = Vis vb q1) as [q1 ->].
    { clear - E1. destruct e as [n|l|n i t|n m|er|er n|n|n|n o'|n|n t|er r x|er| |n]; cbn [visit v_verbose v_queued] in E1; unfold with_node in E1;
        repeat match type of E1 with context [match ?x with _ => _ end] => destruct x; try discriminate end;
        injection E1 as <- _; eauto. }
    destruct (watch look (c_task c) (Vis vb q1) es) as [v2 o2|] eqn:E2; [|discriminate]. injection E as _ <-.
    rewrite lasting_app. cbn [flat_map]. f_equal; [exact (visit_report c vb look q e _ _ HL HO E1)|].
    exact (IH (e :: log) q1 _ _ L E2).
Qed.

Section Shared.
Variable cs : nat -> config.
Hypothesis Hwf : forall i, wf_dag (c_dag (cs i)).
Variable is : list nat.
Variable vb : bool.

(** The tasks in the set are tasks, which began, of executions that did not report their
    end. *)
Definition qinv (lg : nat -> list event) (q : list nid) : Prop :=
  forall m, In m q -> exists j, In j is /\ shown (cs j) vb m /\ before_l (lg j) m /\ forall er, ~ In (EAfterExec er) (lg j).

(** A status line printed for execution [i]. *)
Definition start_ok (lg : nat -> list event) (i : nat) (it : item) : Prop :=
  match it with
  | PStart er name =>
      line_ok (cs i) er /\
      exists j k m x, In j is /\ In k is /\ look_dag (cs j) m = Some x /\ vn_name x = name /\ shown (cs k) vb m /\ before_l (lg k) m
  | _ => True
  end.

Lemma shown_look c n : shown c vb n -> exists x, look_dag c n = Some x.
Proof. intros (y & Hy & _). unfold look_dag. rewrite Hy. eauto. Qed.

Lemma look_others_some w n j x : forall l, In j l -> graph_exists (w j) = true -> look_dag (cs j) n = Some x ->
  exists k y, In k l /\ look_dag (cs k) n = Some y /\ look_others l cs w n = Some y.
Proof.
  induction l as [|k l IH]; intros Hj Hg Hx; [destruct Hj|]. cbn [look_others].
  destruct (if graph_exists (w k) then look_dag (cs k) n else None) as [y|] eqn:E.
  - exists k, y. split; [left; reflexivity|]. split; [|reflexivity]. destruct (graph_exists (w k)); [exact E|discriminate].
  - destruct Hj as [->|Hj]; [rewrite Hg, Hx in E; discriminate|].
    destruct (IH Hj Hg Hx) as (k' & y & A & B & C). exists k', y. split; [right; exact A|]. auto.
Qed.

Definition put (lg : nat -> list event) (i : nat) (l : list event) : nat -> list event :=
  fun j => if j =? i then l else lg j.
Lemma put_same lg i l : put lg i l i = l.
Proof. unfold put. now rewrite Nat.eqb_refl. Qed.
Lemma put_other lg i l j : j <> i -> put lg i l j = lg j.
Proof. unfold put. intros H. now rewrite (proj2 (Nat.eqb_neq j i) H). Qed.

(** One callback. *)
Lemma visit_shared w i lg log e q :
  In i is -> log_ok (cs i) (e :: log) ->
  (forall j m, j <> i -> In j is -> before_l (lg j) m -> (forall er, ~ In (EAfterExec er) (lg j)) -> graph_exists (w j) = true) ->
  qinv (put lg i log) q ->
  exists q' o, visit (look_world is cs w i) (c_task (cs i)) (Vis vb q) e = VOk (Vis vb q') o /\
    qinv (put lg i (e :: log)) q' /\ Forall (start_ok (put lg i (e :: log)) i) o /\
    (forall er n, e = EBeforeRun er n -> shown (cs i) vb n -> In (PStart er (node_name (c_dag (cs i)) n)) o).
Proof.
  intros Hi L HG HQ. pose proof (own_ids (cs i) log e (Hwf i) L) as HO.
  assert (HL : forall n x, look_dag (cs i) n = Some x -> look_world is cs w i n = Some x)
    by (intros n x H; unfold look_world; rewrite H; reflexivity).
  assert (H1 : forall n, In n (own e) -> exists x, look_dag (cs i) n = Some x /\ look_world is cs w i n = Some x /\
              vn_name x = node_name (c_dag (cs i)) n).
  { intros n Hn. destruct (look_ids (cs i) n (HO n Hn)) as (x & Hx & Hn'). exists x. auto. }
  assert (Hkeep : (forall er, e <> EAfterExec er) -> qinv (put lg i (e :: log)) q).
  { intros Hne m Hm. destruct (HQ m Hm) as (j & A & B & [er C] & D). exists j. split; [exact A|]. split; [exact B|].
    destruct (Nat.eq_dec j i) as [->|Hj].
    - rewrite put_same in *. split; [exists er; right; exact C|]. intros er' [X|X]; [exact (Hne er' X)|exact (D er' X)].
    - rewrite put_other in * by exact Hj. split; [exists er; exact C|exact D]. }
  assert (Hquiet : forall o, visit (look_world is cs w i) (c_task (cs i)) (Vis vb q) e = VOk (Vis vb q) o ->
    (forall er, e <> EAfterExec er) -> (forall er n, e <> EBeforeRun er n) -> Forall (fun x => status_line x = false) o ->
    exists q' o, visit (look_world is cs w i) (c_task (cs i)) (Vis vb q) e = VOk (Vis vb q') o /\
    qinv (put lg i (e :: log)) q' /\ Forall (start_ok (put lg i (e :: log)) i) o /\
    (forall er n, e = EBeforeRun er n -> shown (cs i) vb n -> In (PStart er (node_name (c_dag (cs i)) n)) o)).
  { intros o Ho He Hb Hs. exists q, o. split; [exact Ho|]. split; [exact (Hkeep He)|]. split.
    - eapply Forall_impl; [|exact Hs]. intros [] H; try exact I. discriminate H.
    - intros er n X. destruct (Hb er n X). }
  destruct L as [[He [Hnd Hne]] L].
  destruct e as [n|l|n v t|n m|er|er n|n|n|n o|n|n t|er r x|er| |n]; cbn [own ev_cond] in *.
  - destruct (H1 n (or_introl eq_refl)) as (x & Hx & Hx' & _). eapply Hquiet; try discriminate.
    + cbn. unfold with_node. rewrite Hx'. reflexivity.
    + destruct (vn_job x); repeat constructor.
  - eapply Hquiet; try discriminate; [reflexivity|]. repeat constructor.
  - destruct (H1 n (or_introl eq_refl)) as (x & Hx & Hx' & _). eapply Hquiet; try discriminate.
    + cbn. unfold with_node. rewrite Hx'. reflexivity.
    + destruct vb, v; repeat constructor.
  - destruct (H1 n (or_introl eq_refl)) as (x & Hx & Hx' & _). destruct (H1 m (or_intror (or_introl eq_refl))) as (y & Hy & Hy' & _).
    eapply Hquiet; try discriminate.
    + cbn. unfold with_node. rewrite Hx', Hy'. reflexivity.
    + destruct vb; repeat constructor.
  - eapply Hquiet; try discriminate; [reflexivity|]. repeat constructor.
  - destruct He as (Ha & _ & Hn & Hnb & Hnr & _).
    destruct (H1 n (or_introl eq_refl)) as (x & Hx & Hx' & En).
    pose proof (not_recorded_line (cs i) log er n L Ha Hn Hnr) as Hline.
    assert (Hna : forall er', ~ In (EAfterExec er') (EBeforeRun er n :: log)).
    { intros er' [X|X]; [discriminate|]. discriminate (Hne er' X). }
    destruct (negb (vn_hidden x) || vb) eqn:Eh.
    + assert (Hsh : shown (cs i) vb n).
      { unfold look_dag in Hx. destruct (lookup_node (d_nodes (c_dag (cs i))) n) as [y|] eqn:Ey; [|discriminate].
        injection Hx as <-. exists y. split; [exact Ey|]. cbn in Eh. apply orb_true_iff in Eh.
        destruct Eh as [Eh|Eh]; [left; apply negb_true_iff; exact Eh|right; exact Eh]. }
      assert (Hbe : before_l (EBeforeRun er n :: log) n) by (exists er; left; reflexivity).
      exists (set_insert n q), [PStart er (vn_name x)].
      split; [cbn; unfold with_node; rewrite Hx', Eh; reflexivity|]. split; [|split].
      * intros m Hm. apply set_insert_In in Hm. destruct Hm as [->|Hm]; [|apply Hkeep; [discriminate|exact Hm]].
        exists i. rewrite put_same. auto.
      * constructor; [|constructor]. split; [exact Hline|]. exists i, i, n, x. rewrite put_same. auto 8.
      * intros er' n' X _. inversion X; subst er' n'. left. rewrite En. reflexivity.
    + exists q, []. split; [cbn; unfold with_node; rewrite Hx', Eh; reflexivity|]. split; [apply Hkeep; discriminate|].
      split; [constructor|]. intros er' n' X (y & Ey & Hy). inversion X; subst er' n'. exfalso.
      unfold look_dag in Hx. rewrite Ey in Hx. injection Hx as <-. cbn in Eh. apply orb_false_iff in Eh. destruct Eh as [E1 E2].
      apply negb_false_iff in E1. destruct Hy; congruence.
  - eapply Hquiet; try discriminate; [reflexivity|]. repeat constructor.
  - eapply Hquiet; try discriminate; [reflexivity|]. repeat constructor.
  - eapply Hquiet; try discriminate; [reflexivity|]. repeat constructor.
  - eapply Hquiet; try discriminate; [reflexivity|]. repeat constructor.
  - destruct (H1 n (or_introl eq_refl)) as (x & Hx & Hx' & _). eapply Hquiet; try discriminate.
    + cbn. unfold with_node. rewrite Hx'. reflexivity.
    + destruct vb; repeat constructor.
  - destruct He as (Ha & Hn & Hbf & Hnr & _).
    pose proof (not_recorded_line (cs i) log er (r_node r) L Ha Hn Hnr) as Hline.
    specialize (Hkeep ltac:(discriminate)).
    cbn [visit v_verbose v_queued].
    set (o1 := (if negb (t_hidden (c_task (cs i) (r_task r))) || vb || negb (r_retcode r =? 0)%Z then [PEnd er r] else []) ++
               (if vb || negb (r_retcode r =? 0)%Z then [PNested (r_output r)] else [])).
    assert (Ho1 : Forall (start_ok (put lg i (EAfterRun er r x :: log)) i) o1).
    { unfold o1. apply Forall_app. split.
      - match goal with |- context [if ?b then _ else _] => destruct b end; repeat constructor.
      - match goal with |- context [if ?b then _ else _] => destruct b end; repeat constructor. }
    assert (Hsub : forall m, In m (set_erase x q) -> In m q) by (intros m Hm; unfold set_erase in Hm; apply filter_In in Hm; apply Hm).
    assert (Hq : qinv (put lg i (EAfterRun er r x :: log)) (set_erase x q)) by (intros m Hm; apply Hkeep, Hsub, Hm).
    destruct (set_erase x q) as [|m q'] eqn:Eq.
    + exists [], o1. split; [reflexivity|]. split; [exact Hq|]. split; [exact Ho1|]. discriminate.
    + assert (Hm : In m q) by (apply Hsub; left; reflexivity).
      destruct (HQ m Hm) as (j & A & B & C & D). destruct (shown_look _ _ B) as [y Hy].
      assert (exists k y', In k is /\ look_dag (cs k) m = Some y' /\ look_world is cs w i m = Some y') as (k & y' & K1 & K2 & K3).
      { destruct (Nat.eq_dec j i) as [->|Hj]; [exists i, y; auto|]. rewrite put_other in C, D by exact Hj.
        unfold look_world. destruct (look_dag (cs i) m) as [y2|] eqn:E2; [exists i, y2; auto|].
        exact (look_others_some w m j y is A (HG j m Hj A C D) Hy). }
      exists (m :: q'), (o1 ++ [PStart er (vn_name y')]). unfold with_node. rewrite K3. split; [reflexivity|].
      split; [exact Hq|]. split; [|discriminate]. apply Forall_app. split; [exact Ho1|]. constructor; [|constructor].
      split; [exact Hline|]. destruct (Hkeep m Hm) as (j' & A' & B' & C' & _). exists k, j', m, y'. auto 8.
  - exists [], [PExecEnd er]. split; [reflexivity|]. split; [intros m []|]. split; [repeat constructor|discriminate].
  - eapply Hquiet; try discriminate; [reflexivity|]. repeat constructor.
  - eapply Hquiet; try discriminate; [reflexivity|]. repeat constructor.
Qed.

Lemma start_mono lg lg' i it : (forall j, incl (lg j) (lg' j)) -> start_ok lg i it -> start_ok lg' i it.
Proof.
  intros H. destruct it; cbn; auto. intros (A & j & k & m & x & B1 & B2 & B3 & B4 & B5 & er' & B6).
  split; [exact A|]. exists j, k, m, x. repeat split; auto. exists er'. apply H, B6.
Qed.

(** The callbacks of a step. *)
Lemma watch_shared w i lg : In i is ->
  (forall j m, j <> i -> In j is -> before_l (lg j) m -> (forall er, ~ In (EAfterExec er) (lg j)) -> graph_exists (w j) = true) ->
  forall es log q, log_ok (cs i) (rev es ++ log) -> qinv (put lg i log) q ->
  exists q' o, watch (look_world is cs w i) (c_task (cs i)) (Vis vb q) es = VOk (Vis vb q') o /\
    qinv (put lg i (rev es ++ log)) q' /\ Forall (start_ok (put lg i (rev es ++ log)) i) o /\
    (forall er n, In (EBeforeRun er n) es -> shown (cs i) vb n -> In (PStart er (node_name (c_dag (cs i)) n)) o).
Proof.
  intros Hi HG. induction es as [|e es IH]; intros log q L HQ.
  - exists q, []. split; [reflexivity|]. split; [exact HQ|]. split; [constructor|]. intros er n [].
  - cbn [rev] in *. rewrite <- app_assoc in *. cbn [app] in *.
    destruct (visit_shared w i lg log e q Hi (log_ok_app _ _ _ L) HG HQ) as (q1 & o1 & E1 & Q1 & S1 & B1).
    destruct (IH (e :: log) q1 L Q1) as (q2 & o2 & E2 & Q2 & S2 & B2).
    exists q2, (o1 ++ o2). cbn [watch]. rewrite E1, E2. split; [reflexivity|]. split; [exact Q2|]. split.
    + apply Forall_app. split; [|exact S2]. eapply Forall_impl; [|exact S1]. intros it. apply start_mono.
      intros j. unfold put. destruct (j =? i); [|apply incl_refl]. intros x Hx. apply in_app_iff. right. exact Hx.
    + intros er n [X|X] Hs; apply in_app_iff; [left; exact (B1 er n X Hs)|right; exact (B2 er n X Hs)].
Qed.

(** * The program *)

Lemma new_events_log s s' new : s_log s' = new ++ s_log s -> new_events s s' = rev new.
Proof.
  intros E. unfold new_events. rewrite E, rev_app_distr, <- (rev_length (s_log s)).
  rewrite skipn_app, skipn_all, Nat.sub_diag. reflexivity.
Qed.

Lemma run_log c z : wf_dag (c_dag c) -> forall ls s s', reachable c z s -> run_labels c s ls = Some s' ->
  exists new, s_log s' = new ++ s_log s.
Proof.
  intros W. induction ls as [|l ls IH]; intros s s' HR E; cbn in E.
  - injection E as <-. exists []. reflexivity.
  - destruct (step c s l) as [s1|] eqn:E1; [|discriminate].
    destruct (step_log c s l s1 W (r_inv c z s W HR) E1) as [n1 H1].
    destruct (IH s1 s' (reachable_step c z s l s1 HR E1) E) as [n2 H2].
    exists (n2 ++ n1). rewrite H2, H1. apply app_assoc.
Qed.

Variable z : Z.

Lemma still_exists wf w j m ls :
  (forall i, reachable (cs i) z (w i)) -> run_world cs w ls = Some wf -> ended_before_destroyed wf ->
  before_l (s_log (w j)) m -> (forall er, ~ In (EAfterExec er) (s_log (w j))) -> graph_exists (w j) = true.
Proof.
  intros HR E HT [er Hb] Hn. pose proof (r_inv (cs j) z (w j) (Hwf j) (HR j)) as HI.
  pose proof (i_pc _ _ HI) as P. unfold pc_inv in P. unfold graph_exists. destruct (s_pc (w j)) eqn:Epc; try reflexivity.
  - destruct P as (_ & _ & _ & _ & _ & _ & P). rewrite P in Hb. destruct Hb.
  - destruct P as [_ [l Hl]].
    pose proof (world_alone0 cs ls w wf j E) as Ej. destruct (run_log (cs j) z (Hwf j) _ _ _ (HR j) Ej) as [new Hnew].
    assert (Hf : reachable (cs j) z (wf j)).
    { destruct (HR j) as [l0 H0]. exists (l0 ++ labels_of j ls). rewrite run_labels_app, H0. exact Ej. }
    pose proof (r_log (cs j) z (wf j) (Hwf j) Hf) as L.
    assert (new = []) as ->.
    { destruct new as [|e new]; [reflexivity|]. rewrite Hnew in L. destruct L as [[_ [Hd _]] _].
      exfalso. apply Hd, in_app_iff. right. rewrite Hl. left. reflexivity. }
    cbn in Hnew. exfalso. destruct (HT j) as [[er' H]|H].
    + apply trace_in. rewrite Hnew, Hl. left. reflexivity.
    + apply trace_in in H. rewrite Hnew in H. exact (Hn er' H).
    + apply (H m). exists er. apply trace_in. rewrite Hnew. exact Hb.
Qed.

Lemma printed_app i a b : printed_for i (a ++ b) = printed_for i a ++ printed_for i b.
Proof. unfold printed_for. now rewrite filter_app, map_app. Qed.
Lemma printed_same i o : printed_for i (map (pair i) o) = o.
Proof.
  unfold printed_for. induction o as [|x o IH]; [reflexivity|]. cbn. rewrite Nat.eqb_refl. cbn. f_equal. exact IH.
Qed.
Lemma printed_other i j o : i <> j -> printed_for i (map (pair j) o) = [].
Proof.
  intros H. unfold printed_for. induction o as [|x o IH]; [reflexivity|]. cbn.
  rewrite (proj2 (Nat.eqb_neq j i)) by auto. exact IH.
Qed.

Lemma world_shared wf : ended_before_destroyed wf -> forall ls w q,
  (forall i, reachable (cs i) z (w i)) -> (forall i l, In (i, l) ls -> In i is) -> run_world cs w ls = Some wf ->
  qinv (fun j => s_log (w j)) q ->
  exists q' out, watch_world is cs w (Vis vb q) ls = WOk (Vis vb q') out /\
    (forall i, lasting (printed_for i out) = flat_map (report (cs i) vb) (new_events (w i) (wf i))) /\
    (forall i it, In (i, it) out -> start_ok (fun j => s_log (wf j)) i it) /\
    (forall i er n, In (EBeforeRun er n) (new_events (w i) (wf i)) -> shown (cs i) vb n ->
       In (i, PStart er (node_name (c_dag (cs i)) n)) out).
Proof.
  intros HT. induction ls as [|[i l] ls IH]; intros w q HR Hin E HQ.
  - cbn in E. injection E as <-. exists q, []. split; [reflexivity|].
    assert (N : forall i, new_events (w i) (w i) = []) by (intros i; apply (new_events_log _ _ []); reflexivity).
    split; [intros i; rewrite N; reflexivity|]. split; [intros i it []|]. intros i er n H. rewrite N in H. destruct H.
  - pose proof E as Eall. cbn [run_world] in E. cbn [watch_world].
    destruct (world_step cs w (i, l)) as [w'|] eqn:Ew; [|discriminate].
    pose proof Ew as Ew'. unfold world_step in Ew'. cbn [fst snd] in Ew'.
    destruct (step (cs i) (w i) l) as [s1|] eqn:E1; [|discriminate]. injection Ew' as Ew'.
    assert (Hs : w' i = s1) by (rewrite <- Ew'; unfold upd; now rewrite Nat.eqb_refl).
    assert (Ho : forall j, j <> i -> w' j = w j) by (intros j Hj; rewrite <- Ew'; unfold upd; now rewrite (proj2 (Nat.eqb_neq j i) Hj)).
    assert (HR' : forall j, reachable (cs j) z (w' j)).
    { intros j. destruct (Nat.eq_dec j i) as [->|Hj]; [rewrite Hs; exact (reachable_step _ z _ l _ (HR i) E1)|rewrite (Ho j Hj); apply HR]. }
    destruct (step_log (cs i) (w i) l s1 (Hwf i) (r_inv _ z _ (Hwf i) (HR i)) E1) as [new Hnew].
    assert (Hi : In i is) by (apply (Hin i l); left; reflexivity).
    rewrite <- Hs in Hnew. rewrite (new_events_log _ _ _ Hnew).
    assert (HG : forall j m, j <> i -> In j is -> before_l (s_log (w j)) m -> (forall er, ~ In (EAfterExec er) (s_log (w j))) ->
                 graph_exists (w' j) = true).
    { intros j m Hj _ A B. rewrite (Ho j Hj). exact (still_exists wf w j m _ HR Eall HT A B). }
    assert (Hl : log_ok (cs i) (rev (rev new) ++ s_log (w i))).
    { rewrite rev_involutive, <- Hnew. exact (r_log _ z _ (Hwf i) (HR' i)). }
    destruct (watch_shared w' i (fun j => s_log (w j)) Hi HG (rev new) (s_log (w i)) q Hl) as (q1 & o1 & W1 & Q1 & S1 & B1).
    { intros m Hm. destruct (HQ m Hm) as (j & A). exists j. unfold put. destruct (Nat.eqb_spec j i) as [->|]; exact A. }
    rewrite W1. rewrite rev_involutive in Q1, S1.
    assert (Hput : forall j, put (fun j => s_log (w j)) i (new ++ s_log (w i)) j = s_log (w' j)).
    { intros j. unfold put. destruct (Nat.eqb_spec j i) as [->|Hj]; [congruence|rewrite (Ho j Hj); reflexivity]. }
    assert (Q1' : qinv (fun j => s_log (w' j)) q1).
    { intros m Hm. destruct (Q1 m Hm) as (j & A). exists j. rewrite Hput in A. exact A. }
    destruct (IH w' q1 HR' (fun j l' H => Hin j l' (or_intror H)) E Q1') as (q2 & out & W2 & R2 & S2 & B2).
    rewrite W2. exists q2, (map (pair i) o1 ++ out). split; [reflexivity|].
    assert (Hgrow : forall j, exists m, s_log (wf j) = m ++ s_log (w' j)).
    { intros j. exact (run_log (cs j) z (Hwf j) _ _ _ (HR' j) (world_alone0 cs ls w' wf j E)). }
    assert (Hev : forall j, new_events (w j) (wf j) = (if j =? i then rev new else []) ++ new_events (w' j) (wf j)).
    { intros j. destruct (Hgrow j) as [m Hm]. rewrite (new_events_log _ _ _ Hm).
      destruct (Nat.eqb_spec j i) as [->|Hj].
      - rewrite Hnew, app_assoc in Hm. rewrite (new_events_log _ _ _ Hm). apply rev_app_distr.
      - rewrite (Ho j Hj) in Hm. rewrite (new_events_log _ _ _ Hm). reflexivity. }
    split; [|split].
    + intros j. rewrite printed_app, lasting_app, (Hev j), flat_map_app, (R2 j). f_equal.
      destruct (Nat.eqb_spec j i) as [->|Hj].
      * rewrite printed_same. eapply watch_report; [|apply Hwf|exact Hl|exact W1].
        intros n x Hx. unfold look_world. rewrite Hx. reflexivity.
      * rewrite printed_other by exact Hj. reflexivity.
    + intros j it H. apply in_app_iff in H. destruct H as [H|H]; [|exact (S2 j it H)].
      apply in_map_iff in H. destruct H as (it' & H & Hit). injection H as <- <-.
      rewrite Forall_forall in S1. eapply start_mono; [|exact (S1 it' Hit)].
      intros k. rewrite Hput. destruct (Hgrow k) as [m ->]. intros x Hx. apply in_app_iff. right. exact Hx.
    + intros j er n H Hsh. rewrite Hev in H. apply in_app_iff in H. apply in_app_iff. destruct H as [H|H].
      * left. destruct (Nat.eqb_spec j i) as [->|Hj]; [|destruct H]. apply in_map. exact (B1 er n H Hsh).
      * right. exact (B2 j er n H Hsh).
Qed.
End Shared.

Theorem shared_visitor : forall is cs z ls w verbose,
  (forall i, wf_dag (c_dag (cs i))) -> (forall i l, In (i, l) ls -> In i is) ->
  run_world cs (world_init z) ls = Some w -> ended_before_destroyed w ->
  exists v out, watch_world is cs (world_init z) (print_visitor verbose) ls = WOk v out /\
    forall i, exists v1 out1, watch_exec (cs i) (print_visitor verbose) (trace (w i)) = VOk v1 out1 /\
      lasting (printed_for i out) = lasting out1 /\
      (forall er n, In (EBeforeRun er n) (trace (w i)) -> shown (cs i) verbose n ->
         In (i, PStart er (node_name (c_dag (cs i)) n)) out).
Proof.
  intros is cs z ls w vb Hwf Hin E HT.
  assert (HR0 : forall i, reachable (cs i) z (world_init z i)) by (intros i; exists []; reflexivity).
  destruct (world_shared cs Hwf is vb z w HT ls (world_init z) [] HR0 Hin E) as (q & out & W & R & S & B); [intros m []|].
  exists (Vis vb q), out. split; [exact W|]. intros i.
  assert (HR : reachable (cs i) z (w i)) by (apply (world_alone cs z ls w i E)).
  pose proof (r_log _ z _ (Hwf i) HR) as L.
  destruct (watch_log (cs i) (Hwf i) vb _ L) as (q1 & out1 & W1 & _). fold (trace (w i)) in W1.
  assert (N : new_events (world_init z i) (w i) = trace (w i)).
  { apply (new_events_log _ _ (s_log (w i))). cbn. rewrite app_nil_r. reflexivity. }
  exists (Vis vb q1), out1. split; [exact W1|]. split.
  - rewrite (R i), N. symmetry. eapply (watch_report (cs i) vb (look_dag (cs i))); [auto|apply Hwf| |exact W1].
    unfold trace. rewrite rev_involutive, app_nil_r. exact L.
  - intros er n H. apply B. rewrite N. exact H.
Qed.

Lemma lookup_ids l n x : lookup_node l n = Some x -> In n (map n_id l).
Proof.
  induction l as [|y l IH]; cbn; [discriminate|]. destruct (Nat.eqb_spec (n_id y) n) as [E|E]; auto.
Qed.

Theorem shared_status : forall is cs z ls w verbose v out,
  (forall i, wf_dag (c_dag (cs i))) -> (forall i l, In (i, l) ls -> In i is) ->
  (forall i j n, In n (node_ids (c_dag (cs i))) -> In n (node_ids (c_dag (cs j))) -> i = j) ->
  run_world cs (world_init z) ls = Some w -> ended_before_destroyed w ->
  watch_world is cs (world_init z) (print_visitor verbose) ls = WOk v out ->
  forall i er name now, In (i, PStart er name) out ->
    (exists text count, render now (PStart er name) = Some text /\
       shows_counter now GRAY RESET text count (List.length (node_ids (c_dag (cs i)))) /\
       1 <= count <= List.length (node_ids (c_dag (cs i)))) /\
    exists j n, shown (cs j) verbose n /\ task_begun (trace (w j)) n /\ node_name (c_dag (cs j)) n = name.
Proof.
  intros is cs z ls w vb v out Hwf Hin Hdis E HT Hw i er name now Hi.
  assert (HR0 : forall i, reachable (cs i) z (world_init z i)) by (intros k; exists []; reflexivity).
  destruct (world_shared cs Hwf is vb z w HT ls (world_init z) [] HR0 Hin E) as (q & out' & W & R & S & B); [intros m []|].
  unfold print_visitor in Hw. rewrite W in Hw. injection Hw as _ ->.
  destruct (S i _ Hi) as ((H1 & H2) & j & k & m & x & _ & _ & Hx & Hn & Hs & [er' Hb]). split.
  - destruct (status_text now er name H1) as (text & Ht & Hc). rewrite <- H2.
    exists text. eexists. split; [exact Ht|]. split; [exact Hc|]. lia.
  - exists k, m. split; [exact Hs|]. split; [exists er'; apply trace_in; exact Hb|].
    assert (Hk : In m (node_ids (c_dag (cs k)))).
    { destruct Hs as (y & Hy & _). eapply lookup_ids; exact Hy. }
    assert (Hj : In m (node_ids (c_dag (cs j)))).
    { unfold look_dag in Hx. destruct (lookup_node (d_nodes (c_dag (cs j))) m) as [y|] eqn:Ey; [|discriminate].
      eapply lookup_ids; exact Ey. }
    rewrite (Hdis k j m Hk Hj). unfold look_dag in Hx.
    destruct (lookup_node (d_nodes (c_dag (cs j))) m) as [y|] eqn:Ey; [|discriminate]. injection Hx as <-.
    rewrite <- Hn. cbn. unfold node_name. rewrite Ey. reflexivity.
Qed.
