(** Proofs about the default visitor. *)
From Coq Require Import String Ascii Lia.
From Verif Require Import Model.Common Model.Records Model.Jobs Model.TaskSet Model.Dag Model.Sched Model.Exec
     Model.ExecSet Model.Text Model.Process Model.Format Model.Report Model.Visitor
     Spec.Graph Spec.Trace Spec.Tasks Spec.Report
     Proofs.Sets Proofs.TraceFacts Proofs.TextFacts Proofs.ProcessFacts Proofs.FormatFacts
     Proofs.ExecInv Proofs.LogFacts Proofs.ExecProps Proofs.ExecProps2 Proofs.SetExec Proofs.ReportFacts.
Open Scope string_scope.
Open Scope nat_scope.
Open Scope list_scope.

Lemma watch_app look tasks a : forall v b,
  watch look tasks v (a ++ b) =
  match watch look tasks v a with
  | VDangling n => VDangling n
  | VOk v1 o1 =>
      match watch look tasks v1 b with
      | VDangling n => VDangling n
      | VOk v2 o2 => VOk v2 (o1 ++ o2)
      end
  end.
Proof.
  induction a as [|e a IH]; intros v b; cbn [app watch].
  - destruct (watch look tasks v b); reflexivity.
  - destruct (visit look tasks v e) as [v1 o1|n]; [|reflexivity].
    rewrite IH. destruct (watch look tasks v1 a) as [v2 o2|n]; [|reflexivity].
    destruct (watch look tasks v2 b) as [v3 o3|n]; [|reflexivity]. rewrite app_assoc. reflexivity.
Qed.

Lemma watch_one look tasks v e :
  watch look tasks v [e] = visit look tasks v e.
Proof. cbn. destruct (visit look tasks v e) as [v1 o|n]; [rewrite app_nil_r|]; reflexivity. Qed.

Lemma lookup_in l n : In n (map n_id l) -> exists x, lookup_node l n = Some x.
Proof.
  induction l as [|y l IH]; cbn; [tauto|]. intros H.
  destruct (Nat.eqb_spec (n_id y) n) as [E|E]; [eauto|]. apply IH. destruct H; [congruence|assumption].
Qed.

Lemma lookup_task c n x : lookup_node (d_nodes (c_dag c)) n = Some x -> node_task (c_dag c) n = n_task x /\ node_name (c_dag c) n = n_name x.
Proof. unfold node_task, node_name. intros ->. auto. Qed.

Section Watch.
Variable c : config.
Hypothesis Hwf : wf_dag (c_dag c).
Variable vb : bool.
Let ids := node_ids (c_dag c).

Definition rec_shown (r : run_record) : bool :=
  negb (t_hidden (c_task c (r_task r))) || vb || negb (r_retcode r =? 0)%Z.
Definition rec_output (r : run_record) : bool := vb || negb (r_retcode r =? 0)%Z.

Definition line_ok (er : exec_record) : Prop :=
  S (List.length (er_runs er)) <= er_total er /\ er_total er = List.length ids.

Definition item_ok (log : list event) (i : item) : Prop :=
  match i with
  | PStart er name =>
      line_ok er /\ exists n, In n ids /\ shown c vb n /\ node_name (c_dag c) n = name /\ before_l log n
  | PEnd er r => line_ok er /\ exists x, In (EAfterRun er r x) log
  | PInval _ _ | PDepInval _ _ | PRunLog _ _ => vb = true
  | PExecEnd er => In (EAfterExec er) log
  | _ => True
  end.

Lemma item_mono log e i : item_ok log i -> item_ok (e :: log) i.
Proof.
  destruct i; cbn; auto.
  - intros (H & n & H1 & H2 & H3 & er' & H4). split; [exact H|]. exists n. repeat split; auto. exists er'. cbn. auto.
  - intros (H & x & Hx). split; [exact H|]. exists x. auto.
Qed.

Definition watched (log : list event) (q : list nid) (out : list item) : Prop :=
  (forall m, In m q -> In m ids /\ shown c vb m /\ before_l log m) /\
  Forall (item_ok log) out /\
  end_lines out = filter rec_shown (recs log) /\
  outputs out = map r_output (filter rec_output (recs log)) /\
  (c_threads c <= 1 -> forall n, In n q <-> shown c vb n /\ before_l log n /\ ~ recorded_l log n).

Lemma quiet_ok log e q out out' :
  is_after e = false -> (forall er n, e <> EBeforeRun er n) -> 
  watched log q out -> Forall (item_ok (e :: log)) out' -> end_lines out' = [] -> outputs out' = [] ->
  watched (e :: log) q (out ++ out').
Proof.
  intros Ha Hb (W1 & W2 & W3 & W4 & W5) Ho E1 E2.
  assert (Hbl : forall n, before_l (e :: log) n <-> before_l log n).
  { intros n. unfold before_l. cbn. split; intros [er H]; exists er; [destruct H as [H|H]; [destruct (Hb _ _ H)|exact H]|auto]. }
  unfold watched. rewrite recs_other by exact Ha.
  split; [intros m Hm; rewrite Hbl; auto|].
  split; [apply Forall_app; split; [|exact Ho]; eapply Forall_impl; [|exact W2]; intros i Hi; apply item_mono; exact Hi|].
  unfold end_lines, outputs in *. rewrite !flat_map_app, E1, E2, !app_nil_r.
  split; [exact W3|]. split; [exact W4|]. intros Ht n. rewrite Hbl, (W5 Ht n).
  unfold recorded_l. rewrite recs_other by exact Ha. tauto.
Qed.

Lemma not_recorded_line log er n :
  log_ok c log -> accounts c (recs log) er -> In n ids -> ~ recorded_l log n -> line_ok er.
Proof.
  intros L (H1 & H2 & _) Hn Hr. split; [|exact H2]. rewrite H1, H2.
  destruct (recs_nodup c log L) as [N I].
  rewrite <- (map_length r_node (recs log)). change (S (List.length (map r_node (recs log)))) with (List.length (n :: map r_node (recs log))).
  apply NoDup_incl_length.
  - constructor; [|exact N]. intros G. apply in_map_iff in G. destruct G as (r & E & G). apply Hr. exists r. auto.
  - intros x [<-|G]; [exact Hn|apply I; exact G].
Qed.

Lemma watch_log log : log_ok c log ->
  exists q out, watch_exec c (print_visitor vb) (rev log) = VOk (Vis vb q) out /\ watched log q out.
Proof.
  induction log as [|e log IH]; intros L.
  - exists [], []. split; [reflexivity|]. split; [intros m []|]. split; [constructor|].
    split; [reflexivity|]. split; [reflexivity|]. intros _ n. unfold before_l. cbn.
    split; [intros []|intros (_ & [er []] & _)].
  - destruct L as [[He [Hnd Hne]] L]. destruct (IH L) as (q & out & E & W).
    assert (HE : forall v o, visit (look_dag c) (c_task c) (Vis vb q) e = VOk v o ->
       watch_exec c (print_visitor vb) (rev (e :: log)) = VOk v (out ++ o)).
    { intros v o Ho. cbn [rev]. unfold watch_exec in *. rewrite watch_app, E, watch_one, Ho. reflexivity. }
    assert (Hlook : forall n, In n ids -> exists x, lookup_node (d_nodes (c_dag c)) n = Some x /\
      look_dag c n = Some (VNode (n_name x) (t_hidden (c_task c (n_task x))) (t_has_job (c_task c (n_task x))))).
    { intros n Hn. destruct (lookup_in _ _ Hn) as [x Hx]. exists x. split; [exact Hx|].
      unfold look_dag. rewrite Hx. reflexivity. }
    assert (Hq : forall o, visit (look_dag c) (c_task c) (Vis vb q) e = VOk (Vis vb q) o ->
        is_after e = false -> (forall er n, e <> EBeforeRun er n) ->
        Forall (item_ok (e :: log)) o -> end_lines o = [] -> outputs o = [] ->
        exists q' out', watch_exec c (print_visitor vb) (rev (e :: log)) = VOk (Vis vb q') out' /\ watched (e :: log) q' out').
    { intros o Ho. intros. exists q, (out ++ o). split; [apply HE; exact Ho|apply quiet_ok; assumption]. }
    destruct e as [n|l|n v t|n m|er|er n|n|n|n o|n|n t|er r x|er| |n]; cbn [ev_cond] in He.
    + destruct He as (Hn & _). destruct (Hlook n Hn) as (y & Ey & Ly).
      eapply Hq; cbn; [unfold with_node; rewrite Ly; reflexivity|reflexivity|discriminate| | | ];
        cbn; destruct (t_has_job (c_task c (n_task y))); repeat constructor.
    + eapply Hq; cbn; [reflexivity|reflexivity|discriminate|repeat constructor|reflexivity|reflexivity].
    + destruct He as (Hn & _). destruct (Hlook n Hn) as (y & Ey & Ly).
      eapply Hq; cbn; [unfold with_node; rewrite Ly; reflexivity|reflexivity|discriminate| | | ];
        cbn; destruct vb eqn:Evb, v; repeat constructor; exact Evb.
    + destruct He as (Hi & _).
      assert (Hn : In n ids /\ In m ids).
      { apply Hwf in Hi. exact Hi. }
      destruct (Hlook n (proj1 Hn)) as (y & Ey & Ly). destruct (Hlook m (proj2 Hn)) as (w & Ew & Lw).
      eapply Hq; cbn; [unfold with_node; rewrite Ly, Lw; reflexivity|reflexivity|discriminate| | | ];
        cbn; destruct vb eqn:Evb; repeat constructor; exact Evb.
    + eapply Hq; cbn; [reflexivity|reflexivity|discriminate|repeat constructor|reflexivity|reflexivity].
    + destruct He as (Ha & _ & Hn & Hnb & Hnr & _). destruct (Hlook n Hn) as (y & Ey & Ly).
      pose proof (lookup_task c n y Ey) as [_ Enm].
      pose proof (not_recorded_line log er n L Ha Hn Hnr) as Hline.
      destruct (negb (t_hidden (c_task c (n_task y))) || vb) eqn:Eh.
      * assert (Hsh : shown c vb n).
        { exists y. split; [exact Ey|]. apply orb_true_iff in Eh. destruct Eh as [Eh|Eh]; [left; apply negb_true_iff; exact Eh|auto]. }
        exists (set_insert n q), (out ++ [PStart er (n_name y)]).
        split; [apply HE; cbn; unfold with_node; rewrite Ly; cbn; rewrite Eh; reflexivity|].
        destruct W as (W1 & W2 & W3 & W4 & W5).
        assert (Hbl : forall k, before_l (EBeforeRun er n :: log) k <-> before_l log k \/ k = n).
        { intros k. unfold before_l. cbn. split.
          - intros [er' [H|H]]; [inversion H; auto|left; eauto].
          - intros [[er' H]| ->]; eauto. }
        split; [intros k Hk; rewrite Hbl; apply set_insert_In in Hk; destruct Hk as [->|Hk]; [auto|destruct (W1 k Hk) as (A & B & C); auto]|].
        split; [apply Forall_app; split; [eapply Forall_impl; [|exact W2]; intros i Hi; apply item_mono; exact Hi|]|].
        { repeat constructor; [apply Hline|apply Hline|]. exists n. repeat split; auto. exists er. cbn. auto. }
        unfold end_lines, outputs in *. rewrite !flat_map_app. cbn [flat_map app]. rewrite !app_nil_r.
        rewrite recs_other by reflexivity. split; [exact W3|]. split; [exact W4|].
        intros Ht k. rewrite set_insert_In, Hbl, (W5 Ht k). unfold recorded_l. rewrite recs_other by reflexivity.
        split; [intros [->|H]; [auto|tauto]|]. intros (A & [B| ->] & C); [right; tauto|auto].
      * assert (Hsh : ~ shown c vb n).
        { intros (y' & Ey' & H). rewrite Ey in Ey'. inversion Ey'. subst y'. apply orb_false_iff in Eh. destruct Eh as [Eh1 Eh2].
          apply negb_false_iff in Eh1. destruct H; congruence. }
        exists q, (out ++ []). split; [apply HE; cbn; unfold with_node; rewrite Ly; cbn; rewrite Eh; reflexivity|].
        rewrite app_nil_r. destruct W as (W1 & W2 & W3 & W4 & W5).
        assert (Hbl : forall k, before_l log k -> before_l (EBeforeRun er n :: log) k) by (intros k [er' H]; exists er'; cbn; auto).
        split; [intros k Hk; destruct (W1 k Hk) as (A & B & C); auto|].
        split; [eapply Forall_impl; [|exact W2]; intros i Hi; apply item_mono; exact Hi|].
        rewrite recs_other by reflexivity. split; [exact W3|]. split; [exact W4|].
        intros Ht k. rewrite (W5 Ht k). unfold recorded_l. rewrite recs_other by reflexivity.
        split; [intros (A & B & C); auto|]. intros (A & [er' B] & C). split; [exact A|]. split; [|exact C].
        destruct B as [B|B]; [inversion B; subst; contradiction|exists er'; exact B].
    + eapply Hq; cbn; [reflexivity|reflexivity|discriminate|repeat constructor|reflexivity|reflexivity].
    + eapply Hq; cbn; [reflexivity|reflexivity|discriminate|repeat constructor|reflexivity|reflexivity].
    + eapply Hq; cbn; [reflexivity|reflexivity|discriminate|repeat constructor|reflexivity|reflexivity].
    + eapply Hq; cbn; [reflexivity|reflexivity|discriminate|repeat constructor|reflexivity|reflexivity].
    + destruct He as (_ & _ & _ & o & Ho & _).
      assert (Hn : In n ids) by (eapply launch_ids; [exact L|]; eapply begin_launch; [exact L|]; eapply end_begin; eassumption).
      destruct (Hlook n Hn) as (y & Ey & Ly).
      eapply Hq; cbn; [unfold with_node; rewrite Ly; reflexivity|reflexivity|discriminate| | | ];
        cbn; destruct vb eqn:Evb; repeat constructor; exact Evb.
    + destruct He as (Ha & Hn & Hbf & Hnr & _ & Hrok & Hx & Hthr).
      pose proof (not_recorded_line log er (r_node r) L Ha Hn Hnr) as Hline.
      destruct W as (W1 & W2 & W3 & W4 & W5).
      set (o1 := (if rec_shown r then [PEnd er r] else []) ++ (if rec_output r then [PNested (r_output r)] else [])).
      set (q' := set_erase x q).
      assert (Hq' : forall k, In k q' <-> In k q /\ k <> x).
      { intros k. unfold q', set_erase. rewrite filter_In, negb_true_iff, Nat.eqb_neq. tauto. }
      assert (Hbl : forall k, before_l (EAfterRun er r x :: log) k <-> before_l log k).
      { intros k. unfold before_l. cbn. split; intros [er' H]; exists er'; [destruct H; [discriminate|assumption]|auto]. }
      assert (Hvis : exists o2, visit (look_dag c) (c_task c) (Vis vb q) (EAfterRun er r x) = VOk (Vis vb q') (o1 ++ o2) /\
                (o2 = [] \/ exists m, In m q' /\ o2 = [PStart er (node_name (c_dag c) m)])).
      { cbn [visit v_verbose v_queued]. fold q'. change (negb (t_hidden (c_task c (r_task r))) || vb || negb (r_retcode r =? 0)%Z) with (rec_shown r).
        change (vb || negb (r_retcode r =? 0)%Z) with (rec_output r). cbn zeta. fold o1.
        destruct q' as [|m q''] eqn:Eq.
        - exists []. rewrite app_nil_r. auto.
        - assert (Hm : In m q) by (apply Hq'; cbn; auto). destruct (W1 m Hm) as (Hm1 & _).
          destruct (Hlook m Hm1) as (y & Ey & Ly). pose proof (lookup_task c m y Ey) as [_ Enm].
          exists [PStart er (n_name y)]. unfold with_node. rewrite Ly. split; [reflexivity|].
          right. exists m. rewrite Enm. cbn. auto. }
      destruct Hvis as (o2 & Hv & Ho2). exists q', (out ++ o1 ++ o2). split; [apply HE; exact Hv|].
      assert (E2 : end_lines o2 = [] /\ outputs o2 = []) by (destruct Ho2 as [->|(m & _ & ->)]; split; reflexivity).
      split; [intros k Hk; rewrite Hbl; apply W1; apply Hq'; exact Hk|].
      split.
      { rewrite !Forall_app. split; [eapply Forall_impl; [|exact W2]; intros i Hi; apply item_mono; exact Hi|].
        split.
        - unfold o1. apply Forall_app. split.
          + destruct (rec_shown r); repeat constructor; [apply Hline|apply Hline|]. exists x. cbn. auto.
          + destruct (rec_output r); repeat constructor.
        - destruct Ho2 as [->|(m & Hm & ->)]; repeat constructor; [apply Hline|apply Hline|].
          apply Hq' in Hm. destruct Hm as [Hm _]. destruct (W1 m Hm) as (A & B & C).
          exists m. rewrite Hbl. auto. }
      assert (Es : forall r0 l, recs (EAfterRun er r0 x :: l) = recs l ++ [r0]) by (intros; apply recs_after).
      rewrite Es, !filter_app, map_app. unfold end_lines, outputs in *. rewrite !flat_map_app, W3, W4.
      destruct E2 as [-> ->]. rewrite !app_nil_r. cbn [filter].
      split; [f_equal; unfold o1; destruct (rec_shown r), (rec_output r); reflexivity|].
      split; [f_equal; unfold o1; destruct (rec_shown r), (rec_output r); reflexivity|].
      intros Ht k. specialize (Hthr Ht). subst x. rewrite Hq', (W5 Ht k), Hbl.
      unfold recorded_l. rewrite Es. split.
      * intros ((A & B & C) & D). split; [exact A|]. split; [exact B|].
        intros (r0 & Hr0 & Er0). apply in_app_iff in Hr0. destruct Hr0 as [Hr0|[<-|[]]]; [apply C; eauto|congruence].
      * intros (A & B & C). split; [split; [exact A|split; [exact B|]]|].
        -- intros (r0 & Hr0 & Er0). apply C. exists r0. split; [apply in_app_iff; auto|exact Er0].
        -- intros ->. apply C. exists r. split; [apply in_app_iff; cbn; auto|reflexivity].
    + destruct He as (Ha & Hall). destruct W as (W1 & W2 & W3 & W4 & W5).
      exists [], (out ++ [PExecEnd er]). split; [apply HE; reflexivity|].
      split; [intros m []|]. split.
      { apply Forall_app. split; [eapply Forall_impl; [|exact W2]; intros i Hi; apply item_mono; exact Hi|].
        repeat constructor. }
      unfold end_lines, outputs in *. rewrite !flat_map_app, W3, W4. cbn [flat_map]. rewrite !app_nil_r.
      rewrite recs_other by reflexivity. split; [reflexivity|]. split; [reflexivity|].
      intros Ht k. split; [intros []|]. intros (_ & [er' [B|B]] & C); [discriminate|]. apply C.
      unfold recorded_l. rewrite recs_other by reflexivity. apply Hall.
      destruct (log_in c _ _ L B) as (l1 & l2 & _ & [B' _] & _). cbn in B'. tauto.
    + eapply Hq; cbn; [reflexivity|reflexivity|discriminate|repeat constructor|reflexivity|reflexivity].
    + eapply Hq; cbn; [reflexivity|reflexivity|discriminate|repeat constructor|reflexivity|reflexivity].
Qed.

End Watch.

(** * What is printed during an execution *)
Lemma filter_ext_In {A} (f g : A -> bool) l : (forall a, In a l -> f a = g a) -> filter f l = filter g l.
Proof.
  induction l as [|a l IH]; intros H; [reflexivity|]. cbn. rewrite (H a (or_introl eq_refl)).
  rewrite IH by (intros b Hb; apply H; right; exact Hb). reflexivity.
Qed.

Lemma visitor_lines : forall c z s verbose,
  wf_dag (c_dag c) -> reachable c z s ->
  exists v out, watch_exec c (print_visitor verbose) (trace s) = VOk v out /\
    end_lines out =
      filter (fun r => negb (t_hidden (c_task c (r_task r))) || verbose || status_eqb (r_status r) FAIL)
             (records (trace s)) /\
    outputs out = map r_output (filter (fun r => verbose || status_eqb (r_status r) FAIL) (records (trace s))) /\
    (forall name, In name (start_lines out) ->
       exists n er, shown c verbose n /\ node_name (c_dag c) n = name /\ In (EBeforeRun er n) (trace s)) /\
    (forall n er, In (EBeforeRun er n) (trace s) -> shown c verbose n ->
       In (PStart er (node_name (c_dag c) n)) out) /\
    (verbose = false ->
       forall i, In i out ->
         match i with PInval _ _ | PDepInval _ _ | PRunLog _ _ => False | _ => True end).
Proof.
  intros c z s vb Hwf HR. pose proof (r_log c z s Hwf HR) as L.
  destruct (watch_log c Hwf vb _ L) as (q & out & E & _ & W2 & W3 & W4 & _).
  exists (Vis vb q), out. fold (trace s) in E. split; [exact E|].
  rewrite Forall_forall in W2.
  split; [rewrite W3; apply filter_ext_In; intros r Hr; unfold rec_shown; rewrite (failed_code c z s r Hwf HR Hr); reflexivity|].
  split; [rewrite W4; f_equal; apply filter_ext_In; intros r Hr; unfold rec_output; rewrite (failed_code c z s r Hwf HR Hr); reflexivity|].
  split; [|split].
  - intros name H. apply in_flat_map in H. destruct H as (i & Hi & H). destruct i; try (destruct H; fail).
    destruct H as [<-|[]]. destruct (W2 _ Hi) as (_ & n & _ & H1 & H2 & er' & H3).
    exists n, er'. repeat split; auto. apply trace_in. exact H3.
  - intros n er H Hsh. apply in_split in H. destruct H as (pre & post & Et).
    destruct (watch_log c Hwf vb _ (trace_prefix c z s Hwf HR pre (EBeforeRun er n :: post) Et)) as (q1 & out1 & E1 & _).
    rewrite rev_involutive in E1. unfold watch_exec in *. rewrite Et, watch_app, E1 in E. cbn [watch] in E.
    destruct Hsh as (x & Ex & Hx). cbn [visit] in E.
    assert (Hl : look_dag c n = Some (VNode (n_name x) (t_hidden (c_task c (n_task x))) (t_has_job (c_task c (n_task x)))))
      by (unfold look_dag; rewrite Ex; reflexivity).
    unfold with_node in E. rewrite Hl in E.
    cbn [vn_name vn_hidden v_verbose] in E.
    assert (Hb : negb (t_hidden (c_task c (n_task x))) || vb = true) by (destruct Hx as [-> | ->]; [reflexivity|apply orb_true_r]).
    rewrite Hb in E. destruct (watch _ _ _ post) as [v2 o2|]; [|discriminate].
    injection E as _ <-. apply in_app_iff. right. left. f_equal. unfold node_name. rewrite Ex. reflexivity.
  - intros -> i Hi. specialize (W2 i Hi). destruct i; try exact I; discriminate.
Qed.

Lemma status_text now er name : S (List.length (er_runs er)) <= er_total er ->
  exists text, render now (PStart er name) = Some text /\
    shows_counter now GRAY RESET text (S (List.length (er_runs er))) (er_total er).
Proof.
  intros H. cbn [render]. unfold format_status. destruct (fmt_text_defined name) as [t ->]. cbn [obind].
  unfold format_line. rewrite Nat.add_1_r.
  destruct (fmt_counter_value (S (List.length (er_runs er))) (er_total er) ltac:(lia)) as (a & -> & Ha).
  destruct (fmt_counter_value (er_total er) (er_total er) ltac:(lia)) as (b & -> & Hb). cbn [obind].
  eexists. split; [reflexivity|]. exists a, b. eexists. split; [|auto]. rewrite !str_app_assoc. reflexivity.
Qed.

Lemma run_end_text now er r : S (List.length (er_runs er)) <= er_total er ->
  exists text, render now (PEnd er r) = Some text /\
    shows_counter now GRAY RESET text (S (List.length (er_runs er))) (er_total er).
Proof.
  intros H. cbn [render]. unfold format_run_end. destruct (fmt_text_defined (r_name r)) as [t ->]. cbn [obind].
  unfold format_line. rewrite Nat.add_1_r.
  destruct (fmt_counter_value (S (List.length (er_runs er))) (er_total er) ltac:(lia)) as (a & -> & Ha).
  destruct (fmt_counter_value (er_total er) (er_total er) ltac:(lia)) as (b & -> & Hb). cbn [obind].
  eexists. split; [reflexivity|]. exists a, b. eexists. split; [|auto]. rewrite !str_app_assoc. reflexivity.
Qed.

Lemma nth_records pre er r x post :
  nth_error (records (pre ++ EAfterRun er r x :: post)) (List.length (records pre)) = Some r.
Proof. rewrite records_app. rewrite nth_error_app2 by lia. rewrite Nat.sub_diag. reflexivity. Qed.

Lemma visitor_counters : forall c z s verbose v out now,
  wf_dag (c_dag c) -> reachable c z s ->
  watch_exec c (print_visitor verbose) (trace s) = VOk v out ->
  (forall er name, In (PStart er name) out ->
     exists text count, render now (PStart er name) = Some text /\
       shows_counter now GRAY RESET text count (List.length (node_ids (c_dag c))) /\
       1 <= count <= List.length (node_ids (c_dag c))) /\
  (forall er r, In (PEnd er r) out ->
     exists text i, render now (PEnd er r) = Some text /\
       nth_error (records (trace s)) i = Some r /\
       shows_counter now GRAY RESET text (S i) (List.length (node_ids (c_dag c))) /\
       S i <= List.length (node_ids (c_dag c))).
Proof.
  intros c z s vb v out now Hwf HR E. pose proof (r_log c z s Hwf HR) as L.
  destruct (watch_log c Hwf vb _ L) as (q' & out' & E' & _ & W2 & _). fold (trace s) in E'.
  rewrite E in E'. injection E' as _ <-. rewrite Forall_forall in W2. split.
  - intros er name Hi. destruct (W2 _ Hi) as ((H1 & H2) & _).
    destruct (status_text now er name H1) as (text & Ht & Hs). rewrite <- H2.
    exists text. eexists. split; [exact Ht|]. split; [exact Hs|]. lia.
  - intros er r Hi. destruct (W2 _ Hi) as ((H1 & H2) & x & Hx). apply trace_in in Hx.
    apply in_split in Hx. destruct Hx as (pre & post & Et).
    destruct (shown_record_accounts c z s pre _ post er Hwf HR Et eq_refl) as (Er & _).
    destruct (run_end_text now er r H1) as (text & Ht & Hs). rewrite <- H2.
    exists text, (List.length (records pre)). split; [exact Ht|]. split; [rewrite Et; apply nth_records|].
    rewrite Er in Hs, H1. auto.
Qed.

(** * The tasks in progress *)
Lemma in_progress : forall c z s verbose pre post,
  wf_dag (c_dag c) -> c_threads c <= 1 -> reachable c z s -> trace s = pre ++ post ->
  exists q out, watch_exec c (print_visitor verbose) pre = VOk (Vis verbose q) out /\
    forall n, In n q <-> shown c verbose n /\ (exists er, In (EBeforeRun er n) pre) /\ ~ recorded pre n.
Proof.
  intros c z s vb pre post Hwf Ht HR E.
  destruct (watch_log c Hwf vb _ (trace_prefix c z s Hwf HR pre post E)) as (q & out & E' & _ & _ & _ & _ & W).
  rewrite rev_involutive in E'. exists q, out. split; [exact E'|]. intros n. rewrite (W Ht n), recorded_rev.
  unfold before_l. split; intros (A & [er B] & C); (split; [exact A|]); (split; [|exact C]); exists er; apply in_rev; rewrite ?rev_involutive; exact B.
Qed.

Lemma queue_empty c z s vb er : wf_dag (c_dag c) -> reachable c z s -> In (EAfterExec er) (trace s) ->
  exists out, watch_exec c (print_visitor vb) (trace s) = VOk (print_visitor vb) out.
Proof.
  intros Hwf HR H. apply in_split in H. destruct H as (pre & post & Et).
  destruct (watch_log c Hwf vb _ (trace_prefix c z s Hwf HR pre _ Et)) as (q & out & E & _).
  rewrite rev_involutive in E.
  destruct (after_execution_last c z s pre er post Hwf HR Et) as [Hp _].
  exists (out ++ [PExecEnd er]). unfold watch_exec in *. rewrite Et, watch_app, E.
  destruct Hp as [-> | ->]; reflexivity.
Qed.

Lemma successive_executions : forall verbose es,
  Forall (fun p => let '(c, tr) := p in
     wf_dag (c_dag c) /\ exists z s er, reachable c z s /\ tr = trace s /\ In (EAfterExec er) tr) es ->
  exists out, watch_all (print_visitor verbose) es = VOk (print_visitor verbose) out.
Proof.
  intros vb es. induction es as [|[c tr] es IH]; intros H; [exists []; reflexivity|].
  inversion H as [|? ? Hp H']; subst. cbn beta iota in Hp. destruct Hp as (Hwf & z & s & er & HR & -> & Hin). destruct (IH H') as [o2 E2].
  destruct (queue_empty c z s vb er Hwf HR Hin) as [o1 E1]. exists (o1 ++ o2). cbn [watch_all]. rewrite E1, E2. reflexivity.
Qed.

(** * Executions of nothing, and of something *)
Lemma empty_reports : forall c z s er fmt_secs now suite verbose,
  wf_dag (c_dag c) -> reachable c z s -> result s = RRecord er -> node_ids (c_dag c) = [] ->
  (exists v out, watch_exec c (print_visitor verbose) (trace s) = VOk v (out ++ [PExecEnd er])) /\
  render now (PExecEnd er) = None /\ generate_junit_xml fmt_secs now suite er = None.
Proof.
  intros c z s er fs now suite vb Hwf HR Hres Hn.
  assert (Er : er_runs er = []).
  { destruct (result_accounts c z s er Hwf HR Hres) as (H1 & H2 & _). rewrite H1, Hn in H2.
    destruct (er_runs er); [reflexivity|discriminate]. }
  split.
  - destruct (finished_log c z s Hwf HR er Hres) as (_ & _ & l & El & _ & _ & Hl).
    destruct (watch_log c Hwf vb _ Hl) as (q & out & E & _).
    exists (Vis vb []), out. unfold trace. rewrite El. cbn [rev]. unfold watch_exec in *.
    rewrite watch_app, E. reflexivity.
  - cbn [render]. unfold format_exec_end, generate_junit_xml, runtime_sum. rewrite Er. split; reflexivity.
Qed.

Lemma exec_end_text now er : er_runs er <> [] -> 0 < er_total er ->
  exists text, render now (PExecEnd er) = Some text.
Proof.
  intros H1 H2. cbn [render]. unfold format_exec_end. destruct (runtime_sum_spec er H1) as (k & _ & _ & -> & _).
  cbn [obind]. unfold format_line, counter_width.
  destruct (fmt_counter_value (er_total er) (er_total er) H2) as (a & -> & _).
  destruct (er_total er); [lia|]. cbn [obind]. eexists. reflexivity.
Qed.

Lemma reports_defined : forall c z s verbose v out now,
  wf_dag (c_dag c) -> reachable c z s -> node_ids (c_dag c) <> [] ->
  watch_exec c (print_visitor verbose) (trace s) = VOk v out ->
  (forall i, In i out -> exists text, render now i = Some text) /\
  (forall er fmt_secs suite, result s = RRecord er ->
     exists text, generate_junit_xml fmt_secs now suite er = Some text).
Proof.
  intros c z s vb v out now Hwf HR Hn E. pose proof (r_log c z s Hwf HR) as L.
  destruct (watch_log c Hwf vb _ L) as (q' & out' & E' & _ & W2 & _). fold (trace s) in E'.
  rewrite E in E'. injection E' as _ <-. rewrite Forall_forall in W2. split.
  - intros i Hi. specialize (W2 i Hi). destruct i; try (eexists; reflexivity).
    + destruct W2 as ((H & _) & _). destruct (status_text now er name H) as (t & Ht & _). eauto.
    + destruct W2 as ((H & _) & _). destruct (run_end_text now er r H) as (t & Ht & _). eauto.
    + cbn [item_ok] in W2. destruct (log_in c _ _ L W2) as (l1 & l2 & El & [He _] & _).
      cbn [ev_cond] in He. destruct He as ((H1 & H2 & _) & Hall).
      destruct (node_ids (c_dag c)) as [|n ns] eqn:En; [congruence|].
      apply exec_end_text; [|rewrite H2; cbn; lia].
      destruct (Hall n (or_introl eq_refl)) as (r & Hr & _). rewrite H1. intros G. rewrite G in Hr. destruct Hr.
  - intros er fs suite Hres. destruct (result_accounts c z s er Hwf HR Hres) as (H1 & H2 & _).
    unfold generate_junit_xml. destruct (runtime_sum_spec er) as (k & _ & _ & -> & _); [|cbn [obind]; eauto].
    intros G. rewrite G in H2. cbn in H2. destruct (node_ids (c_dag c)); [congruence|]. cbn in H1. lia.
Qed.

Lemma nothing_selected : forall st ts filt iv addr c z s er fmt_secs now suite verbose,
  execution_of st ts filt iv addr c -> (forall t, ~ selected st ts filt t) ->
  reachable c z s -> result s = RRecord er ->
  (exists v out, watch_exec c (print_visitor verbose) (trace s) = VOk v (out ++ [PExecEnd er])) /\
  render now (PExecEnd er) = None /\ generate_junit_xml fmt_secs now suite er = None.
Proof.
  intros st ts filt iv addr c z s er fs now suite vb Hx Hn HR Hres.
  destruct (exec_facts st ts filt iv addr c Hx) as (Hwf & _ & _ & _ & Hns & _).
  apply (empty_reports c z s); auto. destruct (node_ids (c_dag c)) as [|n l] eqn:E; [reflexivity|].
  destruct (Hns n (or_introl eq_refl)) as (t & Ht & _). destruct (Hn t Ht).
Qed.
