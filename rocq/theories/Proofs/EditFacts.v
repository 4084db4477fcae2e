(** Graphs made and changed by hand. *)
From Coq Require Import Lia String Relations Permutation.
From Verif Require Import Model.Common Model.Records Model.Jobs Model.TaskSet Model.Dag Model.Heap
     Model.Sched Model.Exec Model.ExecSet Spec.Graph Spec.Trace Spec.Tasks Spec.Lists Spec.Edits
     Proofs.Sets Proofs.TraceFacts Proofs.BuildFacts Proofs.BuildProps Proofs.ExecInv Proofs.ExecStep
     Proofs.ExecCtl Proofs.LogFacts Proofs.ExecProps Proofs.ExecProps2 Proofs.ExecProps4
     Proofs.HeapFacts Proofs.GraphMem Proofs.MemProps.
Open Scope nat_scope.
Open Scope list_scope.

Lemma ids_removed d f : node_ids (remove_nodes d f) = filter (fun n => negb (f n)) (node_ids d).
Proof.
  unfold node_ids. cbn. induction (d_nodes d) as [|x r IH]; [reflexivity|]. cbn.
  destruct (f (n_id x)); cbn; now rewrite IH.
Qed.
Lemma in_removed d f n : In n (node_ids (remove_nodes d f)) <-> In n (node_ids d) /\ f n = false.
Proof.
  rewrite ids_removed, filter_In. split; intros [A B]; split; auto.
  - now apply Bool.negb_true_iff.
  - now rewrite B.
Qed.
Lemma edge_removed d f e : In e (d_edges (remove_nodes d f)) <->
  In e (d_edges d) /\ f (e_src e) = false /\ f (e_tgt e) = false.
Proof. cbn. rewrite filter_In, Bool.andb_true_iff, !Bool.negb_true_iff. reflexivity. Qed.

Lemma removed_wf d f : wf_dag d -> wf_dag (remove_nodes d f).
Proof.
  intros [ND HE]. split; [rewrite ids_removed; apply NoDup_filter, ND|].
  intros e He. apply edge_removed in He. destruct He as (He & A & B). rewrite !in_removed.
  destruct (HE e He). auto.
Qed.
Lemma emplaced_wf d a name t : wf_dag d -> ~ In a (node_ids d) -> wf_dag (emplace d a name t).
Proof.
  intros [ND HE] Ha. split; [constructor; assumption|]. intros e He. destruct (HE e He). split; right; assumption.
Qed.
Lemma joined_wf d a b k : wf_dag d -> In a (node_ids d) -> In b (node_ids d) -> wf_dag (add_edge d a b k).
Proof. intros [ND HE] Ha Hb. split; [exact ND|]. intros e [<-|He]; [auto|exact (HE e He)]. Qed.

Lemma edit_wf d e : may_edit d e -> wf_dag d -> wf_dag (apply_edit d e).
Proof.
  destruct e as [[a name t|a b k]|f]; cbn; intros M W.
  - now apply emplaced_wf.
  - destruct M. now apply joined_wf.
  - now apply removed_wf.
Qed.
Lemma edited_wf d es d' : edited d es d' -> wf_dag d -> wf_dag d'.
Proof. intros H. induction H as [|d e es d' M H IH]; intros W; [exact W|]. apply IH, edit_wf; assumption. Qed.
Lemma empty_wf : wf_dag dag0. Proof. split; [constructor|intros e []]. Qed.

Lemma edited_app d es d1 es' d2 : edited d es d1 -> edited d1 es' d2 -> edited d (es ++ es') d2.
Proof. intros H. induction H as [|d e es d' M H IH]; intros H2; [exact H2|]. econstructor; [exact M|exact (IH H2)]. Qed.

Lemma builds_edited d cs d' : builds d cs d' -> NoDup (node_ids d') -> edited d (map Made cs) d'.
Proof.
  intros H. induction H as [d|d a name t cs d' H IH|d s t k cs d' Hs Ht H IH]; intros ND; cbn [map].
  - constructor.
  - constructor; [|exact (IH ND)]. cbn.
    destruct (builds_nodes _ _ _ H) as (ns & E). unfold node_ids in ND. rewrite E, map_app in ND. cbn in ND.
    apply NoDup_remove_2 in ND. intros Hi. apply ND, in_or_app. right. exact Hi.
  - constructor; [cbn; auto|exact (IH ND)].
Qed.

(** insert_set is such a sequence of edits. *)
Theorem insertion_edits g st ts filt addr ord1 ord2 g' n :
  some_order ord1 -> some_order ord2 -> wf_dag g -> fresh_nodes g addr (selected st ts filt) ->
  insert_set g st ts filt addr ord1 ord2 = Built (g', n) -> exists cs, edited g (map Made cs) g'.
Proof.
  intros Ho1 Ho2 W Hfr E. destruct (insert_set_calls _ _ _ _ _ _ _ _ _ Ho2 E) as (cs & B). exists cs.
  apply builds_edited; [exact B|]. apply (built_wf g st ts filt addr ord1 ord2 Ho1 Ho2 g' n E W Hfr).
Qed.

(** ** In memory *)

Lemma edits_do g ea : (forall i j, ea i = ea j -> i = j) ->
  forall d es d', edited d es d' -> wf_dag d ->
  forall i w, gr_nodes w g = Some (d_nodes d) -> (forall g', g' <> g -> gr_nodes w g' = None) ->
    map snd (gr_edges w) = d_edges d -> (forall e, In e (map fst (gr_edges w)) -> exists j, j < i /\ e = ea j) ->
  exists w', gdoes_all w (edits_in_memory g ea i es) w' /\ gr_nodes w' g = Some (d_nodes d') /\
    (forall g', g' <> g -> gr_nodes w' g' = None) /\ map snd (gr_edges w') = d_edges d'.
Proof.
  intros Hea d es d' H. induction H as [d|d e es d' M H IH]; intros WF i w W1 W2 W3 W4.
  - exists w. split; [constructor|]. auto.
  - specialize (IH (edit_wf d e M WF)). destruct e as [[a name t|a b k]|f]; cbn [apply_edit apply_call may_edit edits_in_memory] in *.
    + destruct (IH i (Graphs (put (gr_nodes w) g (Some (DNode a name t :: d_nodes d))) (gr_edges w))) as (w' & D' & X).
      * cbn. apply put_same.
      * intros g' N. cbn. rewrite put_other by exact N. exact (W2 g' N).
      * exact W3.
      * exact W4.
      * exists w'. split; [|exact X]. econstructor; [|exact D']. apply GD_Emplace; [exact W1|].
        intros (g' & ns & Y & Z). destruct (Nat.eq_dec g' g) as [->|N]; [|rewrite W2 in Y by exact N; discriminate].
        rewrite W1 in Y. injection Y as <-. exact (M Z).
    + destruct M as [Ma Mb]. destruct (IH (S i) (Graphs (gr_nodes w) ((ea i, Edge a b k) :: gr_edges w))) as (w' & D' & X).
      * exact W1.
      * exact W2.
      * cbn. rewrite W3. reflexivity.
      * intros e [<-|He]; [exists i; split; [lia|reflexivity]|]. destruct (W4 e He) as (j & Hj & ->). exists j. split; [lia|reflexivity].
      * exists w'. split; [|exact X]. econstructor; [|exact D']. apply GD_AddEdge.
        -- intros He. destruct (W4 _ He) as (j & Hj & Ej). apply Hea in Ej. lia.
        -- exists g, (d_nodes d). auto.
        -- exists g, (d_nodes d). auto.
    + destruct (IH i (Graphs (put (gr_nodes w) g (Some (filter (fun x => negb (f (n_id x))) (d_nodes d))))
                             (without (fun n => among (d_nodes d) n && f n) (gr_edges w)))) as (w' & D' & X).
      * cbn. apply put_same.
      * intros g' N. cbn. rewrite put_other by exact N. exact (W2 g' N).
      * cbn. destruct WF as [_ HE]. rewrite <- W3 in HE |- *. clear - HE.
        induction (gr_edges w) as [|[e x] r IHr]; [reflexivity|]. cbn [without filter map snd].
        assert (A : forall n, In n (node_ids d) -> among (d_nodes d) n = true).
        { intros n Hn. apply existsb_exists. apply in_map_iff in Hn. destruct Hn as (y & <- & Hy). exists y. split; [exact Hy|apply Nat.eqb_refl]. }
        destruct (HE x (or_introl eq_refl)) as [Hs Ht]. rewrite (A _ Hs), (A _ Ht). cbn [andb].
        rewrite Bool.negb_orb. specialize (IHr (fun e' He' => HE e' (or_intror He'))).
        destruct (negb (f (e_src x)) && negb (f (e_tgt x))); cbn [map snd]; [f_equal; exact IHr|exact IHr].
      * intros e He. apply W4. cbn in He. apply in_map_iff in He. destruct He as (p & <- & Hp).
        apply filter_In in Hp. apply in_map, Hp.
      * exists w'. split; [|exact X]. econstructor; [|exact D']. apply GD_ClearIf. exact W1.
Qed.

Lemma edits_length g ea : forall es i, length (edits_in_memory g ea i es) = length es.
Proof. induction es as [|[[a n t|s t k]|f] r IH]; intros i; cbn; [reflexivity|rewrite IH; reflexivity..]. Qed.

Theorem edited_in_memory es d g ea fuel :
  edited dag0 es d -> (forall i j, ea i = ea j -> i = j) -> length es + 2 <= fuel ->
  exists m m', run_gops fuel gmem0 (GNew g :: edits_in_memory g ea 0 es) = Ok m /\ holds_graph fuel m g d /\
               g_destroy fuel m g = Ok m' /\ all_freed m'.
Proof.
  intros H Hea Hf.
  destruct (edits_do g ea Hea dag0 es d H empty_wf 0 (Graphs (put (fun _ => None) g (Some [])) []))
    as (w & D & W1 & W2 & W3).
  { apply put_same. } { intros g' N. cbn. rewrite put_other by exact N. reflexivity. } { reflexivity. } { intros e []. }
  assert (DA : gdoes_all graphs0 (GNew g :: edits_in_memory g ea 0 es) w).
  { econstructor; [|exact D]. apply GD_New. reflexivity. }
  destruct (graph_programs fuel _ w DA) as (m & R & S); [cbn; rewrite edits_length; lia|].
  assert (DA2 := gdoes_all_snoc _ _ _ _ _ DA (GD_Destroy w g _ W1)).
  set (w2 := Graphs _ _) in DA2.
  assert (W2' : forall g', gr_nodes w2 g' = None).
  { intros g'. subst w2. cbn [gr_nodes]. unfold put. destruct (Nat.eqb_spec g' g); [reflexivity|]. apply W2. assumption. }
  destruct (graphs_gone fuel _ w2 DA2) as (m' & R' & F1 & F2 & F3 & F4 & F5).
  { rewrite app_length. cbn. rewrite edits_length. lia. }
  { intros g' ns X. rewrite W2' in X. discriminate. }
  rewrite run_gops_app, R in R'. cbn [bind run_gops run_gop] in R'.
  destruct (g_destroy fuel m g) as [m1| |] eqn:GD; [|discriminate|discriminate]. cbn in R'. injection R' as ->.
  exists m, m'. split; [exact R|]. split; [exact (shown_graph fuel m w g d S W1 W2 W3)|]. split; [exact GD|].
  split; [exact F1|]. split; [exact F2|]. split; [|split; assumption].
  intros [k|k]; [|exact (F3 k)].
  destruct (graph_programs fuel _ w2 DA2) as (m2 & R2 & _ & _ & _ & S4).
  { rewrite app_length. cbn. rewrite edits_length. lia. }
  rewrite run_gops_app, R in R2. cbn [bind run_gops run_gop] in R2. rewrite GD in R2. cbn in R2. injection R2 as <-.
  apply S4. apply W2'.
Qed.

(** ** Executions *)

Lemma removed_after d f a b : clos_trans nid (runs_after (remove_nodes d f)) a b -> clos_trans nid (runs_after d) a b.
Proof.
  intros H. induction H as [a b H|a b c H1 IH1 H2 IH2]; [|econstructor 2; eassumption].
  apply t_step. unfold runs_after in *. apply edge_removed in H. apply H.
Qed.
Lemma removed_acyclic d f : acyclic d -> acyclic (remove_nodes d f).
Proof. intros A [n Hn]. apply A. exists n. eapply removed_after, Hn. Qed.

Theorem trimmed_runs c f z s :
  wf_dag (c_dag c) -> reachable (trimmed c f) z s ->
  (acyclic (c_dag c) -> result s <> RThrow ExcCycle) /\
  (forall er, result s = RRecord er ->
     Permutation (map r_node (er_runs er)) (filter (fun n => negb (f n)) (node_ids (c_dag c)))) /\
  (forall n, f n = true -> ~ In (EEnque n) (trace s) /\ ~ In (EAsk n) (trace s) /\ ~ In (EBegin n) (trace s)).
Proof.
  intros W R. assert (W' : wf_dag (c_dag (trimmed c f))) by (apply removed_wf, W).
  split; [|split].
  - intros A E. apply (removed_acyclic _ f A). exact (cycle_thrown _ _ _ W' R E).
  - intros er E. rewrite <- ids_removed. exact (proj1 (recorded_once _ _ _ _ W' R E)).
  - intros n Hf. pose proof (r_log _ _ _ W' R) as L.
    assert (N : ~ In n (node_ids (c_dag (trimmed c f)))).
    { change (c_dag (trimmed c f)) with (remove_nodes (c_dag c) f). rewrite in_removed. intros [_ H]. congruence. }
    unfold trace. rewrite <- !in_rev. split; [|split]; intros H.
    + destruct (log_in _ _ _ L H) as (l1 & l2 & E & Q). apply N, Q.
    + destruct (log_in _ _ _ L H) as (l1 & l2 & E & Q). apply N, Q.
    + apply begin_launch with (c := trimmed c f) in H; [|exact L]. apply N. exact (launch_ids _ _ _ L H).
Qed.

Theorem trimmed_order c f z s a b pre post :
  wf_dag (c_dag c) -> reachable (trimmed c f) z s -> runs_after (c_dag c) a b -> f b = false ->
  trace s = pre ++ EBegin a :: post ->
  recorded pre b /\ (In (EBegin b) pre -> exists o, In (EEnd b o) pre) /\ ~ In (EBegin b) post.
Proof.
  intros W R Ha Hb E. assert (W' : wf_dag (c_dag (trimmed c f))) by (apply removed_wf, W).
  apply (run_after_order (trimmed c f) z s a b pre post W' R); [|exact E].
  apply edge_removed. split; [exact Ha|]. split; [|exact Hb]. cbn.
  destruct (f a) eqn:Ef; [|reflexivity]. exfalso.
  destruct (trimmed_runs c f z s W R) as (_ & _ & X). destruct (X a Ef) as (_ & _ & Y). apply Y. rewrite E.
  apply in_or_app. right. left. reflexivity.
Qed.

Theorem trimmed_failed c f z s a b rb :
  wf_dag (c_dag c) -> requires_after (c_dag c) -> reachable (trimmed c f) z s -> requires (c_dag c) a b ->
  In rb (records (trace s)) -> r_node rb = b -> is_bad (r_status rb) = true ->
  ~ In (EBegin a) (trace s).
Proof.
  intros W RA R Hr Hrb En Hb. assert (W' : wf_dag (c_dag (trimmed c f))) by (apply removed_wf, W).
  destruct (f a) eqn:Ef.
  { apply (trimmed_runs c f z s W R). exact Ef. }
  assert (Fb : f b = false).
  { pose proof (r_log _ _ _ W' R) as L. destruct (recs_nodup _ _ L) as [_ I].
    assert (Hi : In b (node_ids (c_dag (trimmed c f)))).
    { rewrite <- En. apply I. rewrite (recs_trace s). apply in_map. exact Hrb. }
    change (c_dag (trimmed c f)) with (remove_nodes (c_dag c) f) in Hi. apply in_removed in Hi. apply Hi. }
  refine (proj1 (failed_blocks_dependants (trimmed c f) z s a b rb W' _ R _ Hrb En Hb)).
  - intros x y H. apply edge_removed in H. apply edge_removed. destruct H as (H & X). split; [apply RA, H|exact X].
  - apply t_step. apply edge_removed. auto.
Qed.

(** ** One more edge *)

Lemma clos_trans_refl_l (R : nid -> nid -> Prop) a b c : clos_refl_trans nid R a b -> clos_trans nid R b c -> clos_trans nid R a c.
Proof.
  intros H. induction H as [a b H|a|a b d H1 IH1 H2 IH2]; intros T.
  - econstructor 2; [apply t_step, H|exact T].
  - exact T.
  - exact (IH1 (IH2 T)).
Qed.
Lemma joined_path d a b k x y : clos_trans nid (runs_after (add_edge d a b k)) x y ->
  clos_trans nid (runs_after d) x y \/
  (k = AFTER /\ clos_refl_trans nid (runs_after d) x a /\ clos_refl_trans nid (runs_after d) b y) \/
  (k = AFTER /\ clos_refl_trans nid (runs_after d) b a).
Proof.
  assert (TR : forall x y, clos_trans nid (runs_after d) x y -> clos_refl_trans nid (runs_after d) x y).
  { intros u v H. induction H; [apply rt_step; assumption|eapply rt_trans; eassumption]. }
  intros H. induction H as [x y H|x y z H1 IH1 H2 IH2].
  - destruct H as [H|H].
    + injection H as <- <- ->. right. left. split; [reflexivity|]. split; apply rt_refl.
    + left. apply t_step, H.
  - destruct IH1 as [A|[(K & A & B)|A]]; [| |right; right; exact A]; (destruct IH2 as [C|[(K' & C & D)|C]]; [| |right; right; exact C]).
    + left. econstructor 2; eassumption.
    + right. left. split; [exact K'|]. split; [eapply rt_trans; [apply TR, A|exact C]|exact D].
    + right. left. split; [exact K|]. split; [exact A|eapply rt_trans; [exact B|apply TR, C]].
    + right. right. split; [exact K|]. eapply rt_trans; [exact B|exact C].
Qed.
Theorem joined_cycle d a b k : acyclic d ->
  (has_after_cycle (add_edge d a b k) <-> k = AFTER /\ clos_refl_trans nid (runs_after d) b a).
Proof.
  intros A. split.
  - intros [n Hn]. destruct (joined_path _ _ _ _ _ _ Hn) as [H|[(K & H1 & H2)|H]].
    + exfalso. apply A. exists n. exact H.
    + split; [exact K|]. eapply rt_trans; [exact H2|exact H1].
    + exact H.
  - intros [-> H]. exists b. eapply clos_trans_refl_l; [|apply t_step; left; reflexivity].
    assert (G : forall e x y, clos_refl_trans nid (runs_after d) x y -> clos_refl_trans nid (runs_after (Dag (d_nodes d) (e :: d_edges d))) x y).
    { intros e x y X. induction X as [x y X|x|x y z H1 IH1 H2 IH2]; [apply rt_step; right; exact X|apply rt_refl|exact (rt_trans _ _ _ _ _ IH1 IH2)]. }
    exact (G _ _ _ H).
Qed.
