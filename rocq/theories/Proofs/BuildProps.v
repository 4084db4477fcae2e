(** The graph made by insert_set: C17, C18, C54. *)
From Coq Require Import String Ascii Sorted Relations Permutation Lia.
From Verif Require Import Model.Common Model.TaskSet Model.Dag Model.Sched Model.Exec
     Spec.Graph Spec.Tasks Proofs.Sets Proofs.TaskFacts Proofs.BuildFacts.
Open Scope string_scope.
Open Scope nat_scope.
Open Scope list_scope.

Lemma prefix_iff pat : forall s, prefix pat s = true <-> exists b, s = (pat ++ b)%string.
Proof.
  induction pat as [|a pat IH]; intros s; cbn.
  - destruct s; split; eauto.
  - destruct s as [|c s]; cbn; [split; [discriminate|intros [b E]; discriminate]|].
    destruct (ascii_dec a c) as [->|Hn].
    + rewrite IH. split; intros [b E]; exists b; [now rewrite E|now inversion E].
    + split; [discriminate|]. intros [b E]. inversion E. congruence.
Qed.

Lemma contains_iff pat s : contains pat s = true <-> substring pat s.
Proof.
  unfold substring. induction s as [|c s IH]; cbn [contains]; rewrite orb_true_iff, prefix_iff.
  - split.
    + intros [[b E]|H]; [exists "", b; exact E|discriminate].
    + intros (a & b & E). left. destruct a; [exists b; exact E|discriminate].
  - rewrite IH. split.
    + intros [[b E]|(a & b & E)]; [exists "", b; exact E|]. exists (String c a), b. cbn. now rewrite E.
    + intros (a & b & E). destruct a as [|x a]; [left; exists b; exact E|].
      right. inversion E; subst. eauto.
Qed.

Lemma tmp_get_In tmp t name : tmp_get tmp t = Some name -> In (name, t) tmp.
Proof.
  induction tmp as [|[n u] l IH]; cbn; [discriminate|].
  destruct (Nat.eqb_spec u t) as [->|_]; [intros [= ->]; auto|auto].
Qed.

Lemma tmp_get_None tmp t : tmp_get tmp t = None <-> ~ In t (map snd tmp).
Proof.
  induction tmp as [|[n u] l IH]; cbn; [tauto|].
  destruct (Nat.eqb_spec u t) as [->|Hn]; [split; [discriminate|intros H; exfalso; auto]|].
  rewrite IH. tauto.
Qed.

Lemma named_holds ts name t : In (name, t) (for_each_task ts) <-> exists p, holds ts p t /\ name = full_name p.
Proof.
  unfold for_each_task. rewrite impl_paths, in_map_iff. split.
  - intros ([p u] & E & H). cbn in E. inversion E; subst. exists p. split; [now apply paths_holds|reflexivity].
  - intros (p & H & ->). exists (p, t). split; [reflexivity|now apply paths_holds].
Qed.

Lemma roots_selected st ts filt ord x :
  some_order ord ->
  from st (fun x => exists name, In (name, x) (ord (for_each_task ts)) /\ contains filt name = true) x <->
  selected st ts filt x.
Proof.
  intros Ho. unfold from, selected. split.
  - intros (r & (name & HI & Hc) & Hx). apply (Permutation_in _ (Ho _)) in HI.
    apply named_holds in HI. destruct HI as (p & Hp & ->). exists p, r. split; [exact Hp|]. split; [|exact Hx].
    now apply contains_iff.
  - intros (p & r & Hp & Hs & Hx). exists r. split; [|exact Hx]. exists (full_name p). split.
    + apply (Permutation_in _ (Permutation_sym (Ho _))). apply named_holds. eauto.
    + now apply contains_iff.
Qed.

Lemma Permutation_flat_map2 {A B} (f g : A -> list B) l :
  Permutation (flat_map f l ++ flat_map g l) (flat_map (fun x => f x ++ g x) l).
Proof.
  induction l as [|x l IH]; cbn; [auto|]. rewrite <- IH. rewrite <- !app_assoc. apply Permutation_app_head.
  rewrite !app_assoc. apply Permutation_app_tail. apply Permutation_app_comm.
Qed.

Lemma flat_map_perm {A B} (f : A -> list B) l l' : Permutation l l' -> Permutation (flat_map f l) (flat_map f l').
Proof. intros H. now apply Permutation_flat_map. Qed.

Section Insert.
Variable g0 : dag.
Variable st : store.
Variable ts : task_set.
Variable filt : string.
Variable addr : tid -> nid.
Variable ord1 : list (string * tid) -> list (string * tid).
Variable ord2 : list tid -> list tid.
Hypothesis Ho1 : some_order ord1.
Hypothesis Ho2 : some_order ord2.

Notation tmp := (for_each_task ts).
Notation sel := (selected st ts filt).

Lemma insert_set_cases :
  match insert_set g0 st ts filt addr ord1 ord2 with
  | Built (g, n) =>
      exists l, NoDup l /\ (forall t, In t l <-> sel t) /\
                (forall t, sel t -> In t (st_dom st)) /\
                d_nodes g = map (node_of tmp addr) l ++ d_nodes g0 /\
                Permutation (d_edges g) (flat_map (declared_edges st addr l) l ++ d_edges g0) /\
                n = List.length (filter (outside tmp) l)
  | BuildUB => exists t, sel t /\ ~ In t (st_dom st)
  | BuildFuel => False
  end.
Proof.
  unfold insert_set.
  set (b0 := BState g0 [] 0).
  assert (Hf : todo st b0 < S (List.length (st_dom st))).
  { unfold todo. enough (H : forall f (k : list tid), List.length (filter f k) <= List.length k)
      by (apply le_n_S, H).
    intros f k. induction k as [|x k IH]; cbn; [lia|]. destruct (f x); cbn; lia. }
  pose proof (dfs_all_good st tmp addr (S (List.length (st_dom st))) filt (ord1 tmp) b0 Hf) as H.
  destruct (dfs_all _ st tmp addr filt (ord1 tmp) b0) as [b| |]; cbn [good] in H.
  - destruct H as (l & (I & N & E & A & D & _ & M & C) & R & P). cbn [b0 b_index b_dag b_added] in *.
    rewrite app_nil_r in I. rewrite app_nil_r in E. subst l.
    assert (Hsel : forall t, In t (b_index b) <-> sel t).
    { intros t. split.
      - intros Ht. apply (roots_selected st ts filt ord1 t Ho1). now apply R.
      - intros Ht. apply (roots_selected st ts filt ord1 t Ho1) in Ht. destruct Ht as (r & Hr & Hx).
        apply P in Hr. clear P R. apply clos_rt_rt1n in Hx. induction Hx as [|x y z Hxy _ IH]; [exact Hr|].
        apply IH. now apply (C x). }
    destruct (opt_all_perm st addr (b_index b) (ord2 (b_index b)) (b_dag b)) as [Hn He].
    exists (b_index b). split; [exact D|]. split; [exact Hsel|]. split.
    { intros t Ht. apply M. now apply Hsel. }
    split; [etransitivity; [exact Hn|exact N]|]. split; [|lia].
    etransitivity; [exact He|]. rewrite E, app_assoc. apply Permutation_app_tail.
    rewrite (flat_map_perm (opt_of st addr (b_index b)) _ _ (Ho2 (b_index b))).
    rewrite Permutation_app_comm. apply (Permutation_flat_map2 (deps_of st addr) (opt_of st addr (b_index b))).
  - destruct H as (x & Hx & Hd). exists x. split; [|exact Hd]. now apply (roots_selected st ts filt ord1 x Ho1).
  - exact H.
Qed.

(** Never a wrong recursion bound; a destroyed task is met only if a selected one is. *)
Lemma insert_set_defined :
  (exists r, insert_set g0 st ts filt addr ord1 ord2 = Built r) <-> live st sel.
Proof.
  pose proof insert_set_cases as H. unfold live. destruct (insert_set g0 st ts filt addr ord1 ord2) as [[g n]| |].
  - destruct H as (l & _ & _ & Hl & _). split; [auto|]. eauto.
  - destruct H as (t & Ht & Hd). split; [intros [r E]; discriminate|]. intros Hl. exfalso. auto.
  - destruct H.
Qed.

Lemma insert_set_undefined :
  (insert_set g0 st ts filt addr ord1 ord2 = BuildUB <-> exists t, sel t /\ ~ In t (st_dom st)) /\
  insert_set g0 st ts filt addr ord1 ord2 <> BuildFuel.
Proof.
  pose proof insert_set_cases as H. destruct (insert_set g0 st ts filt addr ord1 ord2) as [[g n]| |].
  - destruct H as (l & _ & _ & Hl & _). split; [|discriminate]. split; [discriminate|]. intros (t & Ht & Hn). destruct (Hn (Hl t Ht)).
  - split; [|discriminate]. split; auto.
  - destruct H.
Qed.

Hypothesis Hord : ordered ts.
Hypothesis Hown : owned ts.

Lemma name_of_holds t p : holds ts p t -> name_of tmp t = full_name p.
Proof.
  intros Hp. unfold name_of. destruct (tmp_get tmp t) as [n|] eqn:E.
  - apply tmp_get_In, named_holds in E. destruct E as (q & Hq & ->). now rewrite (Hown p q t Hp Hq).
  - exfalso. apply tmp_get_None in E. apply E. apply (visited_holds ts t). eauto.
Qed.

Lemma name_of_outside t : ~ (exists p, holds ts p t) -> name_of tmp t = "".
Proof.
  intros Hp. unfold name_of. destruct (tmp_get tmp t) as [n|] eqn:E; [|reflexivity].
  apply tmp_get_In, named_holds in E. destruct E as (q & Hq & _). exfalso. eauto.
Qed.

Lemma outside_holds t : outside tmp t = true <-> ~ exists p, holds ts p t.
Proof.
  unfold outside. destruct (tmp_get tmp t) as [n|] eqn:E.
  - apply tmp_get_In, named_holds in E. destruct E as (q & Hq & _). split; [discriminate|]. intros H. exfalso. eauto.
  - split; [|auto]. intros _ Hp. apply tmp_get_None in E. apply E. now apply (visited_holds ts t).
Qed.

(** ** C17 *)
Theorem selects_exactly g n :
  insert_set g0 st ts filt addr ord1 ord2 = Built (g, n) ->
  exists new, d_nodes g = new ++ d_nodes g0 /\ NoDup (map n_task new) /\
    (forall t, In t (map n_task new) <-> selected st ts filt t) /\
    (forall x, In x new ->
       n_id x = addr (n_task x) /\
       (forall p, holds ts p (n_task x) -> n_name x = full_name p) /\
       (~ (exists p, holds ts p (n_task x)) -> n_name x = "")).
Proof.
  intros E. pose proof insert_set_cases as H. rewrite E in H.
  destruct H as (l & Hn & Hs & _ & Hd & _). exists (map (node_of tmp addr) l).
  assert (El : map n_task (map (node_of tmp addr) l) = l) by (rewrite map_map; apply map_id).
  rewrite El. split; [exact Hd|]. split; [exact Hn|]. split; [exact Hs|].
  intros x Hx. apply in_map_iff in Hx. destruct Hx as (t & <- & Ht). cbn. split; [reflexivity|].
  split; [apply name_of_holds|apply name_of_outside].
Qed.

(** ** C18 *)
Theorem edges_declared g n :
  insert_set g0 st ts filt addr ord1 ord2 = Built (g, n) ->
  exists l, NoDup l /\ (forall t, In t l <-> selected st ts filt t) /\
    Permutation (d_edges g) (flat_map (declared_edges st addr l) l ++ d_edges g0).
Proof.
  intros E. pose proof insert_set_cases as H. rewrite E in H.
  destruct H as (l & Hn & Hs & _ & _ & He & _). eauto.
Qed.

(** ** C54 *)
Theorem insertions_while_iterating g n :
  insert_set g0 st ts filt addr ord1 ord2 = Built (g, n) ->
  exists l, NoDup l /\ (forall t, In t l <-> selected st ts filt t /\ ~ exists p, holds ts p t) /\
            n = List.length l.
Proof.
  intros E. pose proof insert_set_cases as H. rewrite E in H.
  destruct H as (l & Hn & Hs & _ & _ & _ & Ha). exists (filter (outside tmp) l).
  split; [now apply NoDup_filter|]. split; [|exact Ha].
  intros t. now rewrite filter_In, outside_holds, Hs.
Qed.
End Insert.

(** Reading the declared edges. *)
Lemma dep3_In addr t ds e :
  In e (dep3 addr t ds) <->
  exists d, In d ds /\ e_src e = addr t /\ e_tgt e = addr d.
Proof.
  unfold dep3. rewrite in_flat_map. split.
  - intros (d & Hd & [<-|[<-|[<-|[]]]]); exists d; auto.
  - intros (d & Hd & E1 & E2). exists d. split; [exact Hd|]. destruct e as [s t' []]; cbn in *; subst; auto.
Qed.

Lemma declared_In st addr l t e :
  In e (declared_edges st addr l t) <->
  (exists d, depends_on st t d /\ e_src e = addr t /\ e_tgt e = addr d) \/
  (exists d, In d (t_run_after (st_get st t)) /\ In d l /\ e = Edge (addr t) (addr d) AFTER) \/
  (exists d, In d (t_invalidated_by (st_get st t)) /\ In d l /\ e = Edge (addr t) (addr d) INVALIDATED_BY).
Proof.
  unfold declared_edges. rewrite !in_app_iff, !in_map_iff. fold (dep3 addr t (t_depends_on (st_get st t))).
  rewrite dep3_In. apply or_iff_compat_l. 
  match goal with |- (?A \/ ?B <-> ?C \/ ?D) => enough ((A <-> C) /\ (B <-> D)) by tauto; split end.
  - split.
    + intros (d & <- & H). apply filter_In in H. destruct H as [H1 H2]. apply mem_In in H2. eauto.
    + intros (d & H1 & H2 & ->). exists d. split; [reflexivity|]. apply filter_In. split; [exact H1|now apply mem_In].
  - split.
    + intros (d & <- & H). apply filter_In in H. destruct H as [H1 H2]. apply mem_In in H2. eauto.
    + intros (d & H1 & H2 & ->). exists d. split; [reflexivity|]. apply filter_In. split; [exact H1|now apply mem_In].
Qed.

Section Built.
Variable g0 : dag.
Variable st : store.
Variable ts : task_set.
Variable filt : string.
Variable addr : tid -> nid.
Variable ord1 : list (string * tid) -> list (string * tid).
Variable ord2 : list tid -> list tid.
Hypothesis Ho1 : some_order ord1.
Hypothesis Ho2 : some_order ord2.
Variable g : dag.
Variable n : nat.
Hypothesis Hbuilt : insert_set g0 st ts filt addr ord1 ord2 = Built (g, n).
Notation sel := (selected st ts filt).

Lemma built_edges e :
  In e (d_edges g) <->
  In e (d_edges g0) \/
  exists t, sel t /\
    ((exists d, depends_on st t d /\ e_src e = addr t /\ e_tgt e = addr d) \/
     (exists d, In d (t_run_after (st_get st t)) /\ sel d /\ e = Edge (addr t) (addr d) AFTER) \/
     (exists d, In d (t_invalidated_by (st_get st t)) /\ sel d /\ e = Edge (addr t) (addr d) INVALIDATED_BY)).
Proof.
  destruct (edges_declared g0 st ts filt addr ord1 ord2 Ho1 Ho2 g n Hbuilt) as (l & Hn & Hs & Hp).
  assert (Hi : In e (d_edges g) <-> In e (flat_map (declared_edges st addr l) l ++ d_edges g0)).
  { split; apply Permutation_in; [exact Hp|now apply Permutation_sym]. }
  rewrite Hi, in_app_iff, in_flat_map. split.
  - intros [(t & Ht & He)|?]; [right|now left]. exists t. split; [now apply Hs|].
    apply declared_In in He. destruct He as [?|[(d & H1 & H2 & H3)|(d & H1 & H2 & H3)]]; [auto| |].
    + right. left. exists d. rewrite <- Hs. auto.
    + right. right. exists d. rewrite <- Hs. auto.
  - intros [?|(t & Ht & He)]; [now right|left]. exists t. split; [now apply Hs|]. apply declared_In.
    destruct He as [?|[(d & H1 & H2 & H3)|(d & H1 & H2 & H3)]]; [auto| |].
    + right. left. exists d. rewrite Hs. auto.
    + right. right. exists d. rewrite Hs. auto.
Qed.

Lemma sel_dep t d : sel t -> depends_on st t d -> sel d.
Proof.
  intros (p & r & Hp & Hs & Hr) Hd. exists p, r. split; [exact Hp|]. split; [exact Hs|].
  eapply rt_trans; [exact Hr|now apply rt_step].
Qed.

Lemma built_nodes x : In x (node_ids g) <-> In x (node_ids g0) \/ exists t, sel t /\ x = addr t.
Proof.
  pose proof (insert_set_cases g0 st ts filt addr ord1 ord2 Ho1 Ho2) as H. rewrite Hbuilt in H.
  destruct H as (l & _ & Hs & _ & Hd & _). unfold node_ids. rewrite Hd, map_app, in_app_iff, map_map. cbn.
  rewrite in_map_iff. split.
  - intros [(t & <- & Ht)|?]; [right|now left]. exists t. split; [now apply Hs|reflexivity].
  - intros [?|(t & Ht & ->)]; [now right|left]. exists t. split; [reflexivity|now apply Hs].
Qed.

Theorem built_wf : wf_dag g0 -> fresh_nodes g0 addr sel -> wf_dag g.
Proof.
  intros [Hnd He] [Hinj Hfr]. split.
  - pose proof (insert_set_cases g0 st ts filt addr ord1 ord2 Ho1 Ho2) as H. rewrite Hbuilt in H.
    destruct H as (l & Hl & Hs & _ & Hd & _). unfold node_ids. rewrite Hd, map_app, map_map. cbn.
    apply NoDup_app_iff. split; [|split; [exact Hnd|]].
    + assert (Hin : forall a b, In a l -> In b l -> addr a = addr b -> a = b) by (intros a b Ha Hb; apply Hinj; now apply Hs).
      clear Hs Hd. induction Hl as [|a l Ha Hl IH]; cbn; constructor.
      * intros HI. apply in_map_iff in HI. destruct HI as (b & E & Hb).
        rewrite <- (Hin b a) in Ha; cbn; auto.
      * apply IH. intros; apply Hin; cbn; auto.
    + intros x Hx Hx'. apply in_map_iff in Hx. destruct Hx as (t & <- & Ht). apply (Hfr t); [now apply Hs|exact Hx'].
  - intros e Hin. apply built_edges in Hin. rewrite !built_nodes. destruct Hin as [Hin|(t & Ht & Hin)].
    + destruct (He e Hin). auto.
    + destruct Hin as [(d & H1 & H2 & H3)|[(d & H1 & H2 & ->)|(d & H1 & H2 & ->)]]; cbn.
      * split; right; [exists t; auto|]. exists d. split; [now apply (sel_dep t)|auto].
      * split; right; [exists t; auto|exists d; auto].
      * split; right; [exists t; auto|exists d; auto].
Qed.

Theorem built_requires_after : requires_after g0 -> requires_after g.
Proof.
  intros H0 a b H. unfold requires, runs_after in *. apply built_edges in H. apply built_edges.
  destruct H as [H|(t & Ht & H)]; [left; now apply H0|right].
  exists t. split; [exact Ht|]. destruct H as [(d & H)|[(d & _ & _ & H)|(d & _ & _ & H)]]; [|discriminate|discriminate].
  left. exists d. exact H.
Qed.

Theorem built_requires_inval :
  (forall a b, requires g0 a b -> inval_by g0 a b) -> forall a b, requires g a b -> inval_by g a b.
Proof.
  intros H0 a b H. unfold requires, inval_by in *. apply built_edges in H. apply built_edges.
  destruct H as [H|(t & Ht & H)]; [left; now apply H0|right].
  exists t. split; [exact Ht|]. destruct H as [(d & H)|[(d & _ & _ & H)|(d & _ & _ & H)]]; [|discriminate|discriminate].
  left. exists d. exact H.
Qed.
End Built.

(** One task that depends on [k] tasks outside the set. *)
Definition wide_store (k : nat) : store :=
  Store (seq 0 (S k)) (fun t => Task true (if t =? 0 then seq 1 k else []) [] [] [] false).
Definition wide_set : task_set := TaskSet [("a", 0)] [].

Lemma wide_ordered : ordered wide_set.
Proof. constructor; repeat constructor. intros name s []. Qed.

Lemma wide_owned : owned wide_set.
Proof. apply owned_visited. repeat constructor. intros []. Qed.

Lemma wide_selected k t : selected (wide_store k) wide_set "" t -> t <= k.
Proof.
  intros (p & r & Hp & _ & Hr).
  assert (Hr0 : r = 0).
  { inversion Hp as [? ? name u Hin|? ? name s q u Hin _]; subst; [|destruct Hin].
    destruct Hin as [E|[]]. now inversion E. }
  subst r. apply clos_rt_rt1n in Hr. inversion Hr as [|x y Hx Hy]; subst; [lia|].
  unfold depends_on in Hx. cbn in Hx. apply in_seq in Hx.
  inversion Hy as [|x' y' Hx' Hy']; subst; [lia|].
  unfold depends_on in Hx'. cbn in Hx'. destruct (Nat.eqb_spec x 0); [lia|destruct Hx'].
Qed.

Theorem rehash_while_iterating buckets :
  exists st ts g n, ordered ts /\ owned ts /\ live st (selected st ts "") /\
    insert_set dag0 st ts "" (fun t => t) (fun l => l) (fun l => l) = Built (g, n) /\
    List.length (for_each_task ts) = 1 /\ buckets < List.length (for_each_task ts) + n.
Proof.
  set (k := buckets). exists (wide_store k), wide_set.
  assert (Hl : live (wide_store k) (selected (wide_store k) wide_set "")).
  { intros t Ht. apply wide_selected in Ht. cbn [wide_store st_dom]. apply in_seq. lia. }
  assert (Ho : forall A, some_order (fun l : list A => l)) by (intros A l; apply Permutation_refl).
  destruct (proj2 (insert_set_defined dag0 (wide_store k) wide_set "" (fun t => t) (fun l => l) (fun l => l)
                     (Ho _) (Ho _)) Hl) as [[g n] E].
  exists g, n. split; [apply wide_ordered|]. split; [apply wide_owned|]. split; [exact Hl|]. split; [exact E|].
  split; [reflexivity|].
  destruct (insertions_while_iterating dag0 (wide_store k) wide_set "" (fun t => t) (fun l => l) (fun l => l)
              (Ho _) (Ho _) g n E) as (l & Hn & Hs & ->).
  assert (Hle : List.length (seq 1 k) <= List.length l).
  { apply NoDup_incl_length; [apply seq_NoDup|]. intros t Ht. apply in_seq in Ht. apply Hs. split.
    - exists ["a"], 0. split; [repeat constructor|]. split; [now exists "", (full_name ["a"])|].
      apply rt_step. unfold depends_on. cbn. apply in_seq. lia.
    - intros [p Hp]. inversion Hp as [? ? name u Hin|? ? name s q u Hin _]; subst; [|destruct Hin].
      destruct Hin as [E0|[]]. inversion E0. lia. }
  rewrite seq_length in Hle. cbn. lia.
Qed.

Theorem closed_set : forall g0 st ts filt addr ord1 ord2 g n,
  some_order ord1 -> some_order ord2 -> insert_set g0 st ts filt addr ord1 ord2 = Built (g, n) ->
  (forall a b, (exists p, holds ts p a) -> depends_on st a b -> exists p, holds ts p b) -> n = 0.
Proof.
  intros g0 st ts filt addr ord1 ord2 g n Ho1 Ho2 E Hc.
  destruct (insertions_while_iterating g0 st ts filt addr ord1 ord2 Ho1 Ho2 g n E) as ([|t l] & _ & Hs & ->); [reflexivity|].
  exfalso. destruct (proj1 (Hs t) (or_introl eq_refl)) as [(p & r & Hp & _ & Hr) Hno]. apply Hno. clear Hno Hs E.
  apply clos_rt_rtn1 in Hr. induction Hr as [|y z Hyz _ IH]; [eauto|]. exact (Hc y z IH Hyz).
Qed.
