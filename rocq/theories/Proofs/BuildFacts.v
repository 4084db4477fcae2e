(** Building a graph from a task set: C17, C18, C54. *)
From Coq Require Import String Ascii Sorted Relations Permutation Lia.
From Verif Require Import Model.Common Model.TaskSet Model.Dag Model.Sched Model.Exec
     Spec.Graph Spec.Tasks Proofs.Sets Proofs.TaskFacts.
Open Scope string_scope.
Open Scope nat_scope.
Open Scope list_scope.

Lemma perm_outer {A} (a b c d : list A) : Permutation ((a ++ b) ++ (d ++ c)) ((a ++ c) ++ (d ++ b)).
Proof.
  rewrite <- !app_assoc. apply Permutation_app_head.
  rewrite (Permutation_app_comm b). rewrite (app_assoc c d b). apply Permutation_app_tail, Permutation_app_comm.
Qed.

Lemma perm_rot {A} (x y z w : list A) : Permutation (w ++ y ++ x ++ z) ((x ++ y) ++ w ++ z).
Proof.
  rewrite !app_assoc. apply Permutation_app_tail. rewrite <- app_assoc. rewrite (Permutation_app_comm w).
  apply Permutation_app_tail, Permutation_app_comm.
Qed.

Section Build.
Variable st : store.
Variable tmp : list (string * tid).
Variable addr : tid -> nid.

Definition dep3 (t : tid) (ds : list tid) : list edge :=
  flat_map (fun d => [Edge (addr t) (addr d) AFTER; Edge (addr t) (addr d) REQUIRES;
                      Edge (addr t) (addr d) INVALIDATED_BY]) ds.
Definition deps_of (t : tid) : list edge := dep3 t (t_depends_on (st_get st t)).
Definition name_of (t : tid) : string := match tmp_get tmp t with Some n => n | None => EmptyString end.
Definition outside (t : tid) : bool := match tmp_get tmp t with Some _ => false | None => true end.
Definition node_of (t : tid) : dnode := DNode (addr t) (name_of t) t.

Definition ext (b b' : bstate) (new : list tid) (es : list edge) : Prop :=
  b_index b' = new ++ b_index b /\
  d_nodes (b_dag b') = map node_of new ++ d_nodes (b_dag b) /\
  Permutation (d_edges (b_dag b')) (es ++ d_edges (b_dag b)) /\
  b_added b' = List.length (filter outside new) + b_added b /\
  NoDup new /\ (forall x, In x new -> ~ In x (b_index b)) /\ (forall x, In x new -> In x (st_dom st)) /\
  (forall x d, In x new -> depends_on st x d -> In d (b_index b')).

(** [new] was reached from the tasks [P]. *)
Definition from (P : tid -> Prop) (x : tid) : Prop := exists r, P r /\ clos_refl_trans tid (depends_on st) r x.

Definition good (b : bstate) (P : tid -> Prop) (extra : list edge) (r : build bstate) : Prop :=
  match r with
  | Built b' => exists new, ext b b' new (flat_map deps_of new ++ extra) /\
                            (forall x, In x new -> from P x) /\ (forall x, P x -> In x (b_index b'))
  | BuildUB => exists x, from P x /\ ~ In x (st_dom st)
  | BuildFuel => False
  end.

Definition todo (b : bstate) : nat := List.length (filter (fun x => negb (mem x (b_index b))) (st_dom st)).

Lemma filter_length_le {A} (f g : A -> bool) l :
  (forall x, In x l -> f x = true -> g x = true) -> List.length (filter f l) <= List.length (filter g l).
Proof.
  induction l as [|x l IH]; intros H; cbn; [lia|].
  assert (IHl : List.length (filter f l) <= List.length (filter g l)) by (apply IH; intros; apply H; cbn; auto).
  destruct (f x) eqn:E; [rewrite (H x (or_introl eq_refl) E); cbn; lia|destruct (g x); cbn; lia].
Qed.

Lemma filter_length_lt {A} (f g : A -> bool) l y :
  (forall x, In x l -> f x = true -> g x = true) -> In y l -> f y = false -> g y = true ->
  List.length (filter f l) < List.length (filter g l).
Proof.
  induction l as [|x l IH]; intros H HI Hf Hg; cbn; [destruct HI|].
  assert (Hle : List.length (filter f l) <= List.length (filter g l))
    by (apply filter_length_le; intros; apply H; cbn; auto).
  destruct HI as [->|HI].
  - rewrite Hf, Hg. cbn. lia.
  - assert (IHl : List.length (filter f l) < List.length (filter g l)) by (apply IH; auto; intros; apply H; cbn; auto).
    destruct (f x) eqn:E; [rewrite (H x (or_introl eq_refl) E); cbn; lia|destruct (g x); cbn; lia].
Qed.

Lemma ext_todo b b' new es : ext b b' new es -> todo b' <= todo b.
Proof.
  intros (Hi & _). apply filter_length_le. intros x _ H. apply negb_true_iff in H. apply negb_true_iff.
  apply mem_false. apply mem_false in H. rewrite Hi in H. intros HI. apply H, in_or_app. auto.
Qed.

Lemma ext_refl b : ext b b [] [].
Proof. repeat split; cbn; auto; try constructor; try contradiction. Qed.

Lemma ext_trans b1 b2 b3 n1 n2 e1 e2 :
  ext b1 b2 n1 e1 -> ext b2 b3 n2 e2 -> ext b1 b3 (n2 ++ n1) (e2 ++ e1).
Proof.
  intros (I1 & N1 & E1 & A1 & D1 & F1 & M1 & C1) (I2 & N2 & E2 & A2 & D2 & F2 & M2 & C2).
  unfold ext. rewrite I2, I1, N2, N1, map_app, !app_assoc.
  repeat split.
  - rewrite E2. rewrite <- app_assoc. now apply Permutation_app_head.
  - rewrite A2, A1, filter_app, app_length. lia.
  - apply NoDup_app_iff. split; [exact D2|]. split; [exact D1|]. intros x Hx Hx'. apply (F2 x Hx).
    rewrite I1. apply in_or_app. auto.
  - intros x Hx. apply in_app_or in Hx. destruct Hx as [Hx|Hx]; [|now apply F1].
    intros HI. apply (F2 x Hx). rewrite I1. apply in_or_app. auto.
  - intros x Hx. apply in_app_or in Hx. destruct Hx; auto.
  - intros x d Hx Hd. apply in_app_or in Hx. destruct Hx as [Hx|Hx].
    + pose proof (C2 x d Hx Hd) as H. rewrite I2, I1, !app_assoc in H. exact H.
    + pose proof (C1 x d Hx Hd) as H. rewrite I1 in H. rewrite <- app_assoc. apply in_or_app. auto.
Qed.

Lemma ext_perm b b' new e1 e2 : Permutation e1 e2 -> ext b b' new e1 -> ext b b' new e2.
Proof.
  intros HP (I1 & N1 & E1 & R). split; [exact I1|]. split; [exact N1|]. split; [|exact R].
  rewrite E1. now apply Permutation_app_tail.
Qed.

Lemma dfs_deps_good rec t f :
  (forall d b, todo b < f -> good b (eq d) [] (rec d b)) ->
  forall ds b, todo b < f -> good b (fun x => In x ds) (dep3 t ds) (dfs_deps rec addr t ds b).
Proof.
  intros Hrec ds. induction ds as [|d ds IH]; intros b Hf; cbn [dfs_deps].
  - exists []. split; [apply ext_refl|]. split; [intros x []|intros x []].
  - pose proof (Hrec d b Hf) as H. destruct (rec d b) as [b1| |]; cbn [good] in H; [|destruct H as (x & Hx & Hd)|destruct H].
    + destruct H as (n1 & X1 & R1 & P1). rewrite app_nil_r in X1.
      set (b2 := BState _ (b_index b1) (b_added b1)).
      assert (X2 : ext b1 b2 [] (dep3 t [d])).
      { repeat split; cbn; auto; try constructor; try contradiction.
        apply (Permutation_trans (perm_swap _ _ _)).
        apply (Permutation_trans (perm_skip _ (perm_swap _ _ _))).
        apply perm_swap. }
      assert (Hf2 : todo b2 < f).
      { apply ext_todo in X2. apply ext_todo in X1. lia. }
      pose proof (IH b2 Hf2) as H. destruct (dfs_deps rec addr t ds b2) as [b3| |]; cbn [good] in H |- *.
      * destruct H as (n3 & X3 & R3 & P3).
        exists (n3 ++ n1). split; [|split].
        -- pose proof (ext_trans _ _ _ _ _ _ _ (ext_trans _ _ _ _ _ _ _ X1 X2) X3) as X. cbn [app] in X.
           eapply ext_perm; [|exact X]. rewrite flat_map_app.
           change (dep3 t (d :: ds)) with (dep3 t [d] ++ dep3 t ds). apply perm_outer.
        -- intros x Hx. apply in_app_or in Hx. destruct Hx as [Hx|Hx].
           ++ destruct (R3 x Hx) as (r & Hr & Hrx). exists r. cbn. auto.
           ++ destruct (R1 x Hx) as (r & <- & Hrx). exists d. cbn. auto.
        -- intros x [<-|Hx]; [|now apply P3].
           destruct X3 as (I3 & _). rewrite I3. apply in_or_app. right. cbn. now apply P1.
      * destruct H as (x & (r & Hr & Hrx) & Hd). exists x. split; [exists r; cbn; auto|exact Hd].
      * exact H.
    + destruct Hx as (r & <- & Hrx). exists x. split; [exists d; cbn; auto|exact Hd].
Qed.

Lemma dfs_good fuel : forall t b, todo b < fuel -> good b (eq t) [] (dfs fuel st tmp addr t b).
Proof.
  induction fuel as [|f IH]; intros t b Hf; [lia|]. cbn [dfs].
  destruct (mem t (b_index b)) eqn:Ei.
  { apply mem_In in Ei. exists []. split; [apply ext_refl|]. split; [intros x []|intros x <-; exact Ei]. }
  apply mem_false in Ei.
  destruct (mem t (st_dom st)) eqn:Ed; cbn [negb].
  2:{ apply mem_false in Ed. exists t. split; [exists t; split; [reflexivity|apply rt_refl]|exact Ed]. }
  apply mem_In in Ed.
  set (b1 := BState _ _ _).
  assert (Hf1 : todo b1 < f).
  { unfold todo in *. cbn [b_index b1].
    enough (List.length (filter (fun x => negb (mem x (t :: b_index b))) (st_dom st)) <
            List.length (filter (fun x => negb (mem x (b_index b))) (st_dom st))) by lia.
    apply filter_length_lt with t; auto.
    - intros x _ H. apply negb_true_iff in H. apply negb_true_iff. apply mem_false in H. apply mem_false.
      intros HI. apply H. cbn. auto.
    - apply negb_false_iff. apply mem_In. cbn. auto.
    - apply negb_true_iff. now apply mem_false. }
  pose proof (dfs_deps_good (dfs f st tmp addr) t f IH (t_depends_on (st_get st t)) b1 Hf1) as H.
  destruct (dfs_deps _ addr t _ b1) as [b2| |]; cbn [good] in H |- *; [|destruct H as (x & (r & Hr & Hx) & Hd)|exact H].
  - destruct H as (n2 & (I2 & N2 & E2 & A2 & D2 & F2 & M2 & C2) & R2 & P2).
    exists (n2 ++ [t]). split; [|split].
    + unfold ext. rewrite I2, N2, A2. cbn [b_index b_dag b_added b1 emplace d_nodes d_edges] in *.
      repeat split.
      * now rewrite <- app_assoc.
      * rewrite map_app, <- app_assoc. reflexivity.
      * rewrite E2. rewrite flat_map_app. cbn [flat_map]. rewrite !app_nil_r. reflexivity.
      * rewrite filter_app, app_length. cbn [filter]. unfold outside at 3.
        destruct (tmp_get tmp t); cbn [List.length]; lia.
      * apply NoDup_app_iff. split; [exact D2|]. split; [repeat constructor; intros []|].
        intros x Hx [<-|[]]. apply (F2 t Hx). cbn. auto.
      * intros x Hx. apply in_app_or in Hx. destruct Hx as [Hx|[<-|[]]]; [|exact Ei].
        intros HI. apply (F2 x Hx). cbn. auto.
      * intros x Hx. apply in_app_or in Hx. destruct Hx as [Hx|[<-|[]]]; [auto|exact Ed].
      * intros x d Hx Hd. apply in_app_or in Hx. destruct Hx as [Hx|[<-|[]]].
        -- pose proof (C2 x d Hx Hd) as H. rewrite I2 in H. exact H.
        -- pose proof (P2 d Hd) as H. rewrite I2 in H. exact H.
    + intros x Hx. exists t. split; [reflexivity|]. apply in_app_or in Hx. destruct Hx as [Hx|[<-|[]]]; [|apply rt_refl].
      destruct (R2 x Hx) as (r & Hr & Hrx). eapply rt_trans; [apply rt_step; exact Hr|exact Hrx].
    + intros x <-. rewrite I2. apply in_or_app. right. cbn. auto.
  - exists x. split; [|exact Hd]. exists t. split; [reflexivity|].
    eapply rt_trans; [apply rt_step; exact Hr|exact Hx].
Qed.

Lemma dfs_all_good fuel filt l : forall b, todo b < fuel ->
  good b (fun x => exists name, In (name, x) l /\ contains filt name = true) []
       (dfs_all fuel st tmp addr filt l b).
Proof.
  induction l as [|[name t] l IH]; intros b Hf; cbn [dfs_all].
  - exists []. split; [apply ext_refl|]. split; [intros x []|intros x (n & [] & _)].
  - destruct (contains filt name) eqn:Ec.
    + pose proof (dfs_good fuel t b Hf) as H.
      destruct (dfs fuel st tmp addr t b) as [b1| |]; cbn [good] in H |- *; [|destruct H as (x & (r & <- & Hx) & Hd)|exact H].
      * destruct H as (n1 & X1 & R1 & P1). rewrite app_nil_r in X1.
        assert (Hf1 : todo b1 < fuel) by (apply ext_todo in X1; lia).
        pose proof (IH b1 Hf1) as H. destruct (dfs_all fuel st tmp addr filt l b1) as [b2| |]; cbn [good] in H |- *.
        -- destruct H as (n2 & X2 & R2 & P2). rewrite app_nil_r in X2. exists (n2 ++ n1). split; [|split].
           ++ rewrite app_nil_r, flat_map_app. eapply ext_trans; eassumption.
           ++ intros x Hx. apply in_app_or in Hx. destruct Hx as [Hx|Hx].
              ** destruct (R2 x Hx) as (r & (n & Hn & Hc) & Hrx). exists r. split; [exists n; cbn; auto|exact Hrx].
              ** destruct (R1 x Hx) as (r & <- & Hrx). exists t. split; [exists name; cbn; auto|exact Hrx].
           ++ intros x (n & [E|Hn] & Hc).
              ** inversion E; subst. destruct X2 as (I2 & _). rewrite I2. apply in_or_app. right. now apply P1.
              ** apply P2. eauto.
        -- destruct H as (x & (r & (n & Hn & Hc) & Hrx) & Hd). exists x. split; [|exact Hd].
           exists r. split; [exists n; cbn; auto|exact Hrx].
        -- exact H.
      * exists x. split; [|exact Hd]. exists t. split; [exists name; cbn; auto|exact Hx].
    + pose proof (IH b Hf) as H. destruct (dfs_all fuel st tmp addr filt l b) as [b2| |]; cbn [good] in H |- *.
      * destruct H as (n2 & X2 & R2 & P2). exists n2. split; [exact X2|]. split.
        -- intros x Hx. destruct (R2 x Hx) as (r & (n & Hn & Hc) & Hrx). exists r. split; [exists n; cbn; auto|exact Hrx].
        -- intros x (n & [E|Hn] & Hc); [inversion E; subst; congruence|]. apply P2. eauto.
      * destruct H as (x & (r & (n & Hn & Hc) & Hrx) & Hd). exists x. split; [|exact Hd].
        exists r. split; [exists n; cbn; auto|exact Hrx].
      * exact H.
Qed.

(** The second loop. *)
Definition opt_of (sel : list tid) (t : tid) : list edge :=
  map (fun d => Edge (addr t) (addr d) AFTER) (filter (fun d => mem d sel) (t_run_after (st_get st t))) ++
  map (fun d => Edge (addr t) (addr d) INVALIDATED_BY)
      (filter (fun d => mem d sel) (t_invalidated_by (st_get st t))).

Lemma add_opt_perm sel t k ds : forall g,
  d_nodes (add_opt_edges sel addr t k ds g) = d_nodes g /\
  Permutation (d_edges (add_opt_edges sel addr t k ds g))
              (map (fun d => Edge (addr t) (addr d) k) (filter (fun d => mem d sel) ds) ++ d_edges g).
Proof.
  unfold add_opt_edges. induction ds as [|d ds IH]; intros g; cbn [fold_left filter]; [cbn; auto|].
  destruct (mem d sel).
  - destruct (IH (add_edge g (addr t) (addr d) k)) as [Hn He]. split; [exact Hn|].
    rewrite He. cbn [map app add_edge d_edges]. symmetry. apply Permutation_middle.
  - apply IH.
Qed.

Lemma opt_all_perm sel l : forall g,
  let g' := fold_left
          (fun g t =>
             let g := add_opt_edges sel addr t AFTER (t_run_after (st_get st t)) g in
             add_opt_edges sel addr t INVALIDATED_BY (t_invalidated_by (st_get st t)) g) l g in
  d_nodes g' = d_nodes g /\ Permutation (d_edges g') (flat_map (opt_of sel) l ++ d_edges g).
Proof.
  induction l as [|t l IH]; intros g; [cbn; auto|]. cbn [fold_left flat_map].
  set (g1 := add_opt_edges sel addr t AFTER (t_run_after (st_get st t)) g).
  set (g2 := add_opt_edges sel addr t INVALIDATED_BY (t_invalidated_by (st_get st t)) g1).
  destruct (IH g2) as [Hn He]. destruct (add_opt_perm sel t AFTER (t_run_after (st_get st t)) g) as [Hn1 He1].
  destruct (add_opt_perm sel t INVALIDATED_BY (t_invalidated_by (st_get st t)) g1) as [Hn2 He2].
  fold g1 in Hn1, He1. fold g2 in Hn2, He2. cbn zeta in *. split; [now rewrite Hn, Hn2, Hn1|].
  rewrite He, He2, He1. rewrite <- app_assoc. unfold opt_of at 2. apply perm_rot.
Qed.
End Build.
