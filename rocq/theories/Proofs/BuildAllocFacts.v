(** Allocations that fail while a graph is built (C108). *)
From Coq Require Import String Lia Permutation.
From Verif Require Import Model.Common Model.TaskSet Model.Dag Model.Heap Model.BuildAlloc
     Spec.Lists Spec.Graph Spec.Tasks Proofs.Sets Proofs.HeapFacts Proofs.GraphMem Proofs.BuildProps Proofs.MemProps.
Open Scope nat_scope.
Open Scope list_scope.

(** What is left of the calls [cs] on [g] if only [k] of them get their memory. *)
Definition pays {A} (k : nat) (g : dag) (cs : list call) (a : A) : tries A :=
  if k <? List.length cs then OutOfMemory (fold_left apply_call (firstn k cs) g) else Going (k - List.length cs) a.

Lemma pays_nil {A} k g (a : A) : pays k g [] a = Going k a.
Proof. unfold pays. cbn. rewrite Nat.sub_0_r. reflexivity. Qed.

Lemma pays_app {A B} k g c1 c2 g1 (a : A) (b : B) f : fold_left apply_call c1 g = g1 ->
  (forall k, f k a = pays k g1 c2 b) -> tbind (pays k g c1 a) f = pays k g (c1 ++ c2) b.
Proof.
  intros E H. unfold pays at 1. destruct (Nat.ltb_spec k (List.length c1)) as [L|L]; cbn [tbind].
  - unfold pays. rewrite app_length. destruct (Nat.ltb_spec k (List.length c1 + List.length c2)); [|lia].
    rewrite firstn_app. replace (k - List.length c1) with 0 by lia. rewrite app_nil_r. reflexivity.
  - rewrite H. unfold pays. rewrite app_length.
    destruct (Nat.ltb_spec (k - List.length c1) (List.length c2)), (Nat.ltb_spec k (List.length c1 + List.length c2)); try lia.
    + rewrite firstn_app, fold_left_app, (firstn_all2 c1) by lia. rewrite E. reflexivity.
    + f_equal. lia.
Qed.

Lemma pays_edge {A} k g a b e cs (r : A) f :
  (forall k, f k (add_edge g a b e) = pays k (add_edge g a b e) cs r) ->
  tbind (m_add_edge k g a b e) f = pays k g (AddEdge a b e :: cs) r.
Proof.
  intros H. replace (m_add_edge k g a b e) with (pays k g [AddEdge a b e] (add_edge g a b e)).
  - apply (pays_app k g [AddEdge a b e] cs (add_edge g a b e)); [reflexivity|exact H].
  - unfold pays. cbn [List.length]. destruct k as [|k]; cbn; [reflexivity|]. rewrite Nat.sub_0_r. reflexivity.
Qed.
Lemma pays_node {A} k g a name t cs (r : A) f :
  (forall k, f k (emplace g a name t) = pays k (emplace g a name t) cs r) ->
  tbind (m_emplace k g a name t) f = pays k g (Emplace a name t :: cs) r.
Proof.
  intros H. replace (m_emplace k g a name t) with (pays k g [Emplace a name t] (emplace g a name t)).
  - apply (pays_app k g [Emplace a name t] cs (emplace g a name t)); [reflexivity|exact H].
  - unfold pays. cbn [List.length]. destruct k as [|k]; cbn; [reflexivity|]. rewrite Nat.sub_0_r. reflexivity.
Qed.

Section Calls.
Variable st : store.
Variable tmp : list (string * tid).
Variable addr : tid -> nid.

Definition mstep (m : nat -> bstate -> tries bstate) (t : tid) (b b' : bstate) : Prop :=
  exists cs, builds (b_dag b) cs (b_dag b') /\ (forall k, m k b = pays k (b_dag b) cs b') /\
    indexed addr b' /\ incl (b_index b) (b_index b') /\ In t (b_index b').

Lemma m_deps rec mrec t :
  (forall d b b', indexed addr b -> rec d b = Built b' -> mstep (mrec d) d b b') ->
  forall ds b b', indexed addr b -> In t (b_index b) -> dfs_deps rec addr t ds b = Built b' ->
  mstep (m_dfs_deps mrec addr t ds) t b b'.
Proof.
  intros HR. induction ds as [|d ds IH]; intros b b' HI Ht E; cbn [dfs_deps] in E.
  - injection E as <-. exists []. split; [constructor|]. split; [intros k; symmetry; apply pays_nil|].
    split; [exact HI|]. split; [apply incl_refl|exact Ht].
  - destruct (rec d b) as [b1| |] eqn:E1; [|discriminate|discriminate].
    destruct (HR d b b1 HI E1) as (cs1 & B1 & P1 & I1 & L1 & D1).
    assert (Ht1 := L1 t Ht).
    apply IH in E; [|intros x Hx; exact (I1 x Hx)|exact Ht1].
    destruct E as (cs2 & B2 & P2 & I2 & L2 & T2). cbn [b_dag b_index] in *.
    assert (A1 := I1 t Ht1). assert (A2 := I1 d D1).
    exists (cs1 ++ AddEdge (addr t) (addr d) AFTER :: AddEdge (addr t) (addr d) REQUIRES ::
            AddEdge (addr t) (addr d) INVALIDATED_BY :: cs2).
    split; [|split; [|split; [exact I2|split; [intros x Hx; apply L2, L1, Hx|exact T2]]]].
    + apply (builds_app _ _ _ _ _ B1).
      constructor; [exact A1|exact A2|]. constructor; [exact A1|exact A2|]. constructor; [exact A1|exact A2|exact B2].
    + intros k. cbn [m_dfs_deps]. rewrite P1. apply (pays_app k _ cs1 _ (b_dag b1)); [exact (builds_apply _ _ _ B1)|].
      clear k. intros k. apply pays_edge. clear k. intros k. apply pays_edge. clear k. intros k. apply pays_edge.
      clear k. intros k. apply P2.
Qed.

Lemma m_dfs_pays fuel : forall t b b', indexed addr b -> dfs fuel st tmp addr t b = Built b' ->
  mstep (m_dfs fuel st tmp addr t) t b b'.
Proof.
  induction fuel as [|f IH]; intros t b b' HI E; cbn [dfs] in E; [discriminate|]. unfold mstep. cbn [m_dfs].
  destruct (mem t (b_index b)) eqn:Em.
  - injection E as <-. exists []. split; [constructor|]. split; [intros k; symmetry; apply pays_nil|]. split; [exact HI|].
    split; [apply incl_refl|]. apply mem_In. exact Em.
  - destruct (mem t (st_dom st)); cbn [negb] in E |- *; [|discriminate].
    set (name := match tmp_get tmp t with Some n => n | None => EmptyString end) in *.
    apply (m_deps _ (m_dfs f st tmp addr)) in E; [|exact IH| |left; reflexivity].
    + destruct E as (cs & B & P & I & L & T). cbn [b_dag b_index] in *.
      exists (Emplace (addr t) name t :: cs). split; [constructor; exact B|]. split; [|split; [exact I|split; [|exact T]]].
      * intros k. apply pays_node. exact P.
      * intros x Hx; apply L; right; exact Hx.
    + intros x Hx. cbn [b_dag b_index] in *. destruct Hx as [<-|Hx]; [left; reflexivity|right; exact (HI x Hx)].
Qed.

Lemma m_all_pays fuel filt : forall tmp' b b', indexed addr b -> dfs_all fuel st tmp addr filt tmp' b = Built b' ->
  exists cs, builds (b_dag b) cs (b_dag b') /\
    (forall k, m_dfs_all fuel st tmp addr filt tmp' k b = pays k (b_dag b) cs b') /\ indexed addr b'.
Proof.
  induction tmp' as [|[name t] r IH]; intros b b' HI E; cbn [dfs_all m_dfs_all] in *.
  - injection E as <-. exists []. split; [constructor|]. split; [intros k; symmetry; apply pays_nil|exact HI].
  - destruct (contains filt name); [|exact (IH b b' HI E)].
    destruct (dfs fuel st tmp addr t b) as [b1| |] eqn:E1; [|discriminate|discriminate].
    destruct (m_dfs_pays fuel t b b1 HI E1) as (cs1 & B1 & P1 & I1 & _ & _).
    destruct (IH b1 b' I1 E) as (cs2 & B2 & P2 & I2). exists (cs1 ++ cs2).
    split; [exact (builds_app _ _ _ _ _ B1 B2)|]. split; [|exact I2]. intros k. rewrite P1.
    apply (pays_app k _ cs1 _ (b_dag b1)); [exact (builds_apply _ _ _ B1)|exact P2].
Qed.

Lemma m_opt_pays index t e : forall ds g,
  (forall x, In x index -> In (addr x) (node_ids g)) -> In t index ->
  exists cs, builds g cs (add_opt_edges index addr t e ds g) /\
    (forall k, m_opt_edges index addr t e ds k g = pays k g cs (add_opt_edges index addr t e ds g)) /\
    node_ids (add_opt_edges index addr t e ds g) = node_ids g.
Proof.
  unfold add_opt_edges. induction ds as [|d ds IH]; intros g HI Ht; cbn [fold_left m_opt_edges].
  - exists []. split; [constructor|]. split; [intros k; symmetry; apply pays_nil|reflexivity].
  - destruct (mem d index) eqn:Em; [|exact (IH g HI Ht)].
    destruct (IH (add_edge g (addr t) (addr d) e)) as (cs & B & P & N); [exact HI|exact Ht|].
    exists (AddEdge (addr t) (addr d) e :: cs). split; [|split; [|exact N]].
    + constructor; [exact (HI t Ht)|apply HI, mem_In, Em|exact B].
    + intros k. apply pays_edge. exact P.
Qed.

Lemma m_second_pays index : forall l g,
  (forall x, In x index -> In (addr x) (node_ids g)) -> incl l index ->
  let g' := fold_left
          (fun g t =>
             let g := add_opt_edges index addr t AFTER (t_run_after (st_get st t)) g in
             add_opt_edges index addr t INVALIDATED_BY (t_invalidated_by (st_get st t)) g) l g in
  exists cs, builds g cs g' /\ forall k, m_second st index addr l k g = pays k g cs g'.
Proof.
  induction l as [|t l IH]; intros g HI HL; cbn [fold_left m_second].
  - exists []. split; [constructor|]. intros k; symmetry; apply pays_nil.
  - assert (Ht : In t index) by (apply HL; left; reflexivity).
    destruct (m_opt_pays index t AFTER (t_run_after (st_get st t)) g HI Ht) as (c1 & B1 & P1 & N1).
    destruct (m_opt_pays index t INVALIDATED_BY (t_invalidated_by (st_get st t)) _
                ltac:(intros x Hx; rewrite N1; exact (HI x Hx)) Ht) as (c2 & B2 & P2 & N2).
    destruct (IH _ ltac:(intros x Hx; rewrite N2, N1; exact (HI x Hx)) ltac:(intros x Hx; apply HL; right; exact Hx))
      as (c3 & B3 & P3).
    exists (c1 ++ c2 ++ c3). split; [apply (builds_app _ _ _ _ _ B1), (builds_app _ _ _ _ _ B2); exact B3|].
    intros k. rewrite P1. eapply pays_app; [exact (builds_apply _ _ _ B1)|]. clear k. intros k. rewrite P2.
    eapply pays_app; [exact (builds_apply _ _ _ B2)|exact P3].
Qed.
End Calls.

Lemma m_insert_pays g0 st ts filt addr ord1 ord2 g n : some_order ord2 ->
  insert_set g0 st ts filt addr ord1 ord2 = Built (g, n) ->
  exists cs, builds g0 cs g /\ forall k, m_insert_set k g0 st ts filt addr ord1 ord2 = pays k g0 cs (g, n).
Proof.
  intros Ho E. unfold insert_set in E. unfold m_insert_set.
  destruct (dfs_all _ st (for_each_task ts) addr filt _ _) as [b| |] eqn:E1; [|discriminate|discriminate].
  injection E as <- <-.
  destruct (m_all_pays st (for_each_task ts) addr _ filt _ (BState g0 [] 0) b ltac:(intros t []) E1) as (c1 & B1 & P1 & I1).
  destruct (m_second_pays st addr (b_index b) (ord2 (b_index b)) (b_dag b) I1) as (c2 & B2 & P2).
  { intros x Hx. apply (Permutation_in x (Ho (b_index b))). exact Hx. }
  exists (c1 ++ c2). split; [exact (builds_app _ _ _ _ _ B1 B2)|]. intros k. rewrite P1. cbn [b_dag] in *.
  eapply pays_app; [exact (builds_apply _ _ _ B1)|]. clear k. intros k. rewrite P2.
  set (r := fold_left _ _ _) in *. replace (pays k (b_dag b) c2 (r, b_added b)) with (pays k (b_dag b) (c2 ++ []) (r, b_added b))
    by (rewrite app_nil_r; reflexivity).
  eapply pays_app; [exact (builds_apply _ _ _ B2)|]. clear k. intros k. symmetry. apply pays_nil.
Qed.

(** The calls made before memory ran out. *)
Lemma builds_firstn d cs d' : builds d cs d' -> forall k,
  builds d (firstn k cs) (fold_left apply_call (firstn k cs) d) /\
  builds (fold_left apply_call (firstn k cs) d) (skipn k cs) d'.
Proof.
  intros H. induction H as [d|d a name t cs d' H IH|d s t e cs d' Hs Ht H IH]; intros [|k]; cbn [firstn skipn fold_left].
  - split; constructor.
  - split; constructor.
  - split; [constructor|constructor; exact H].
  - destruct (IH k) as [X Y]. split; [constructor; exact X|exact Y].
  - split; [constructor|constructor; assumption].
  - destruct (IH k) as [X Y]. split; [constructor; assumption|exact Y].
Qed.

Lemma builds_more d cs d' : builds d cs d' ->
  exists ns es, d_nodes d' = ns ++ d_nodes d /\ d_edges d' = es ++ d_edges d /\
    List.length cs = List.length ns + List.length es.
Proof.
  intros H. induction H as [d|d a name t cs d' H IH|d s t k cs d' Hs Ht H IH].
  - exists [], []. repeat split.
  - destruct IH as (ns & es & E1 & E2 & L). exists (ns ++ [DNode a name t]), es.
    split; [rewrite <- app_assoc; exact E1|]. split; [exact E2|]. rewrite app_length. cbn. lia.
  - destruct IH as (ns & es & E1 & E2 & L). exists ns, (es ++ [Edge s t k]).
    split; [exact E1|]. split; [rewrite <- app_assoc; exact E2|]. rewrite app_length. cbn. lia.
Qed.

Lemma builds_wf d cs d' : builds d cs d' -> NoDup (node_ids d') -> wf_dag d -> wf_dag d'.
Proof.
  intros H ND W. split; [exact ND|]. induction H as [d|d a name t cs d' H IH|d s t k cs d' Hs Ht H IH].
  - apply W.
  - apply IH; [exact ND|]. split.
    + destruct (builds_nodes _ _ _ H) as [ns E]. unfold node_ids in ND. rewrite E, map_app in ND.
      apply NoDup_app_iff in ND as (_ & ND & _). exact ND.
    + intros e He. destruct (proj2 W e He) as [W1 W2]. split; right; assumption.
  - apply IH; [exact ND|]. split; [apply W|]. intros e [<-|He]; [split; assumption|exact (proj2 W e He)].
Qed.

Theorem memory_runs_out g0 st ts filt addr ord1 ord2 d n : some_order ord1 -> some_order ord2 ->
  wf_dag g0 -> fresh_nodes g0 addr (selected st ts filt) ->
  insert_set g0 st ts filt addr ord1 ord2 = Built (d, n) ->
  let made := (List.length (d_nodes d) - List.length (d_nodes g0)) + (List.length (d_edges d) - List.length (d_edges g0)) in
  forall k,
  (made <= k -> m_insert_set k g0 st ts filt addr ord1 ord2 = Going (k - made) (d, n)) /\
  (k < made -> exists g ns es ns' es',
     m_insert_set k g0 st ts filt addr ord1 ord2 = OutOfMemory g /\ wf_dag g /\
     d_nodes g = ns ++ d_nodes g0 /\ d_edges g = es ++ d_edges g0 /\ List.length ns + List.length es = k /\
     d_nodes d = ns' ++ d_nodes g /\ d_edges d = es' ++ d_edges g).
Proof.
  intros Ho1 Ho2 Hg Hf E made k. destruct (m_insert_pays g0 st ts filt addr ord1 ord2 d n Ho2 E) as (cs & B & P).
  pose proof (built_wf g0 st ts filt addr ord1 ord2 Ho1 Ho2 d n E Hg Hf) as WF.
  assert (L : List.length cs = made).
  { destruct (builds_more _ _ _ B) as (ns & es & E1 & E2 & L). unfold made. rewrite E1, E2, !app_length. lia. }
  rewrite P. unfold pays. rewrite L. split; intros H; destruct (Nat.ltb_spec k made); try lia; [reflexivity|].
  destruct (builds_firstn _ _ _ B k) as [B1 B2]. set (g := fold_left apply_call (firstn k cs) g0) in *.
  destruct (builds_more _ _ _ B1) as (ns & es & E1 & E2 & L1).
  destruct (builds_more _ _ _ B2) as (ns' & es' & E3 & E4 & _).
  exists g, ns, es, ns', es'. split; [reflexivity|]. split.
  - apply (builds_wf _ _ _ B1); [|exact Hg]. pose proof (proj1 WF) as ND. unfold node_ids in ND. rewrite E3, map_app in ND.
    apply NoDup_app_iff in ND as (_ & ND & _). exact ND.
  - split; [exact E1|]. split; [exact E2|]. split; [|split; [exact E3|exact E4]]. rewrite <- L1, firstn_length. lia.
Qed.

(** ** In memory *)

Lemma builds_memory d cs g ea : builds dag0 cs d -> NoDup (node_ids d) -> (forall i j, ea i = ea j -> i = j) ->
  forall fuel, List.length cs + 2 <= fuel ->
    exists m m', run_gops fuel gmem0 (GNew g :: in_memory g ea 0 cs) = Ok m /\ holds_graph fuel m g d /\
                 g_destroy fuel m g = Ok m' /\ all_freed m'.
Proof.
  intros B ND Hea fuel Hf.
  destruct (in_memory_does g ea Hea dag0 cs d B ND 0 (Graphs (put (fun _ => None) g (Some [])) []))
    as (w & D & W1 & W2 & W3).
  { apply put_same. } { intros g' N. cbn. rewrite put_other by exact N. reflexivity. } { reflexivity. } { intros e []. }
  assert (DA : gdoes_all graphs0 (GNew g :: in_memory g ea 0 cs) w).
  { econstructor; [|exact D]. apply GD_New. reflexivity. }
  destruct (graph_programs fuel _ w DA) as (m & R & S); [cbn; rewrite in_memory_length; lia|].
  assert (DA2 := gdoes_all_snoc _ _ _ _ _ DA (GD_Destroy w g _ W1)).
  set (w2 := Graphs _ _) in DA2.
  assert (W2' : forall g', gr_nodes w2 g' = None).
  { intros g'. subst w2. cbn [gr_nodes]. unfold put. destruct (Nat.eqb_spec g' g); [reflexivity|]. apply W2. assumption. }
  destruct (graphs_gone fuel _ w2 DA2) as (m' & R' & F1 & F2 & F3 & F4 & F5).
  { rewrite app_length. cbn. rewrite in_memory_length. lia. }
  { intros g' ns X. rewrite W2' in X. discriminate. }
  rewrite run_gops_app, R in R'. cbn [bind run_gops run_gop] in R'.
  destruct (g_destroy fuel m g) as [m1| |] eqn:GD; [|discriminate|discriminate]. cbn in R'. injection R' as ->.
  exists m, m'. split; [exact R|]. split; [exact (shown_graph fuel m w g d S W1 W2 W3)|]. split; [exact GD|].
  split; [exact F1|]. split; [exact F2|]. split; [|split; assumption].
  intros [k|k]; [|exact (F3 k)].
  destruct (graph_programs fuel _ w2 DA2) as (m2 & R2 & _ & _ & _ & S4).
  { rewrite app_length. cbn. rewrite in_memory_length. lia. }
  rewrite run_gops_app, R in R2. cbn [bind run_gops run_gop] in R2. rewrite GD in R2. cbn in R2. injection R2 as <-.
  apply S4. apply W2'.
Qed.

Theorem nothing_leaks st ts filt addr ord1 ord2 d n k left g ea : some_order ord1 -> some_order ord2 ->
  fresh_nodes dag0 addr (selected st ts filt) -> (forall i j, ea i = ea j -> i = j) ->
  insert_set dag0 st ts filt addr ord1 ord2 = Built (d, n) ->
  m_insert_set k dag0 st ts filt addr ord1 ord2 = OutOfMemory left ->
  exists cs, fold_left apply_call cs dag0 = left /\ List.length cs = k /\
    forall fuel, k + 2 <= fuel ->
    exists m m', run_gops fuel gmem0 (GNew g :: in_memory g ea 0 cs) = Ok m /\ holds_graph fuel m g left /\
                 g_destroy fuel m g = Ok m' /\ all_freed m'.
Proof.
  intros Ho1 Ho2 Hf Hea E M. destruct (m_insert_pays dag0 st ts filt addr ord1 ord2 d n Ho2 E) as (cs & B & P).
  assert (W0 : wf_dag dag0) by (split; [constructor|intros e []]).
  pose proof (built_wf dag0 st ts filt addr ord1 ord2 Ho1 Ho2 d n E W0 Hf) as WF.
  rewrite P in M. unfold pays in M. destruct (Nat.ltb_spec k (List.length cs)) as [L|L]; [|discriminate]. injection M as <-.
  destruct (builds_firstn _ _ _ B k) as [B1 B2]. destruct (builds_nodes _ _ _ B2) as [ns En].
  assert (Lf : List.length (firstn k cs) = k) by (rewrite firstn_length; lia).
  exists (firstn k cs). split; [reflexivity|]. split; [exact Lf|]. intros fuel Hfuel. apply builds_memory; [exact B1| |exact Hea|lia].
  pose proof (proj1 WF) as ND. unfold node_ids in ND. rewrite En, map_app in ND.
  apply NoDup_app_iff in ND as (_ & ND & _). exact ND.
Qed.
