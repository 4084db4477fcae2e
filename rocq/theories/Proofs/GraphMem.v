(** Graphs in memory. *)
From Coq Require Import String Lia.
From Verif Require Import Model.Common Model.TaskSet Model.Dag Model.Heap Spec.Lists Proofs.HeapFacts.
Open Scope nat_scope.
Open Scope list_scope.

Definition none (n : nat) : Prop := False.
Definition sel_is (sel : edge -> nat) (n : nat) (p : nat * edge) : bool := sel (snd p) =? n.
(** The lists of edges of the nodes in [D]. *)
Definition elist (sel : edge -> nat) (D : nat -> bool) (E : list (nat * edge)) (n : nat) : option (list nat) :=
  if D n then Some (map fst (filter (sel_is sel n) E)) else None.

Record grep (m : gmem) (LN : nat -> option (list nat)) (OD ID : nat -> bool) (E : list (nat * edge)) : Prop := GRep {
  gr_n : hrep (m_nodes m) LN none;
  gr_o : hrep (m_out m) (elist e_src OD E) none;
  gr_i : hrep (m_in m) (elist e_tgt ID E) none;
  gr_nd : NoDup (map fst E);
  gr_e : forall e x, m_edge m e = Some x <-> In (e, x) E;
  gr_end : forall e x, In (e, x) E -> OD (e_src x) = true /\ ID (e_tgt x) = true }.

Lemma filter_comm {A} (f g : A -> bool) xs : filter f (filter g xs) = filter g (filter f xs).
Proof.
  induction xs as [|x r IH]; [reflexivity|]. cbn.
  destruct (g x) eqn:Eg; destruct (f x) eqn:Ef; cbn; rewrite ?Eg, ?Ef, IH; reflexivity.
Qed.
Lemma filter_filter {A} (f g : A -> bool) xs : filter f (filter g xs) = filter (fun x => g x && f x) xs.
Proof.
  induction xs as [|x r IH]; [reflexivity|]. cbn.
  destruct (g x) eqn:Eg; cbn; [destruct (f x)|]; rewrite ?IH; reflexivity.
Qed.

Definition no_edge (e : nat) (E : list (nat * edge)) : list (nat * edge) := filter (fun p => negb (fst p =? e)) E.
Lemma map_no_edge e E : map fst (no_edge e E) = remove_node e (map fst E).
Proof.
  unfold no_edge, remove_node. induction E as [|[a x] r IH]; [reflexivity|]. cbn.
  destruct (a =? e); cbn; rewrite IH; reflexivity.
Qed.
Lemma elist_no_edge sel D e E n :
  elist sel D (no_edge e E) n = option_map (remove_node e) (elist sel D E n).
Proof.
  unfold elist. destruct (D n); [|reflexivity]. cbn. f_equal.
  unfold no_edge. rewrite filter_comm. apply map_no_edge.
Qed.
Lemma NoDup_filter' {A} (f : A -> bool) xs : NoDup xs -> NoDup (filter f xs).
Proof. apply NoDup_filter. Qed.

Lemma elist_delete h sel D E e x : hrep h (elist sel D E) none -> In (e, x) E -> D (sel x) = true ->
  exists h', hdr_destroy h (HN e) = Ok h' /\ hrep h' (elist sel D (no_edge e E)) none.
Proof.
  intros R He HD.
  assert (EL : elist sel D E (sel x) = Some (map fst (filter (sel_is sel (sel x)) E))).
  { unfold elist. rewrite HD. reflexivity. }
  assert (Hin : In e (map fst (filter (sel_is sel (sel x)) E))).
  { apply in_map_iff. exists (e, x). split; [reflexivity|]. apply filter_In. split; [exact He|].
    unfold sel_is. cbn. apply Nat.eqb_refl. }
  destruct (hrep_delete_linked h _ _ _ _ e R EL Hin) as (h' & E1 & R').
  exists h'. split; [exact E1|]. revert R'. apply hrep_ext; [|reflexivity].
  intros l. rewrite elist_no_edge. unfold put. destruct (Nat.eqb_spec l (sel x)) as [->|N].
  - rewrite EL. reflexivity.
  - destruct (elist sel D E l) as [ys|] eqn:El; [|reflexivity]. cbn. f_equal. symmetry.
    apply remove_node_absent. intros X. apply N. exact (hr_disj _ _ _ R _ _ _ _ e El EL X Hin).
Qed.

Lemma delete_edge_ok m LN OD ID E e x : grep m LN OD ID E -> In (e, x) E ->
  exists m', delete_edge e m = Ok m' /\ grep m' LN OD ID (no_edge e E) /\ m_node m' = m_node m.
Proof.
  intros [a b c d f g] He. destruct (g e x He) as [G1 G2].
  destruct (elist_delete _ _ _ _ e x c He G2) as (hi & E1 & R1).
  destruct (elist_delete _ _ _ _ e x b He G1) as (ho & E2 & R2).
  unfold delete_edge. rewrite (proj2 (f e x) He). cbn [of_opt bind]. rewrite E1. cbn [bind]. rewrite E2.
  cbn [bind]. eexists. split; [reflexivity|]. split; [|reflexivity].
  constructor; cbn [m_nodes m_out m_in m_edge set_edge set_out set_in].
  - exact a.
  - exact R2.
  - exact R1.
  - rewrite map_no_edge. apply NoDup_filter'. exact d.
  - intros e' x'. unfold no_edge. rewrite filter_In. cbn [fst]. unfold put.
    destruct (Nat.eqb_spec e' e) as [->|N]; cbn.
    + split; [discriminate|]. intros [_ X]. discriminate.
    + rewrite f. tauto.
  - intros e' x' H. unfold no_edge in H. apply filter_In in H. exact (g e' x' (proj1 H)).
Qed.

(** Deleting the in (out) edges of a node. *)
Definition not_to (sel : edge -> nat) (n : nat) (E : list (nat * edge)) : list (nat * edge) :=
  filter (fun p => negb (sel_is sel n p)) E.

Lemma filter_nil_all {A} (f : A -> bool) xs : filter f xs = [] -> forall x, In x xs -> f x = false.
Proof.
  intros H x Hx. destruct (f x) eqn:E; [|reflexivity].
  assert (X : In x (filter f xs)) by (apply filter_In; auto). rewrite H in X. destruct X.
Qed.

Lemma not_to_no_edge sel n e x E : NoDup (map fst E) -> In (e, x) E -> sel x = n ->
  not_to sel n (no_edge e E) = not_to sel n E.
Proof.
  intros ND He Hs. unfold not_to, no_edge. rewrite filter_filter. apply filter_ext_in.
  intros [e' x'] H. cbn [fst]. destruct (Nat.eqb_spec e' e) as [->|N]; [|reflexivity]. cbn.
  assert (x' = x).
  { clear Hs. induction E as [|[a y] r IH]; [destruct He|]. cbn in ND. inversion ND as [|? ? N1 N2]; subst.
    destruct H as [H|H]; destruct He as [He|He].
    - congruence.
    - exfalso. apply N1. injection H as -> ->. exact (in_map fst _ _ He).
    - exfalso. apply N1. injection He as -> ->. exact (in_map fst _ _ H).
    - exact (IH N2 He H). }
  subst x'. unfold sel_is. cbn. rewrite Hs, Nat.eqb_refl. reflexivity.
Qed.

Lemma head_edge sel n E e es : map fst (filter (sel_is sel n) E) = e :: es ->
  exists x, In (e, x) E /\ sel x = n.
Proof.
  intros H. destruct (filter (sel_is sel n) E) as [|[a x] r] eqn:EF; [discriminate|].
  cbn in H. injection H as -> _.
  assert (X : In (e, x) (filter (sel_is sel n) E)) by (rewrite EF; left; reflexivity).
  apply filter_In in X. destruct X as [X1 X2]. exists x. split; [exact X1|]. apply Nat.eqb_eq. exact X2.
Qed.
Lemma tail_edges sel n E e es : NoDup (map fst E) -> map fst (filter (sel_is sel n) E) = e :: es ->
  map fst (filter (sel_is sel n) (no_edge e E)) = es.
Proof.
  intros ND H. unfold no_edge. rewrite filter_comm. fold (no_edge e (filter (sel_is sel n) E)).
  rewrite map_no_edge, H.
  assert (N : NoDup (e :: es)).
  { rewrite <- H. clear H. induction E as [|[a x] r IH]; [constructor|]. cbn in ND. inversion ND; subst.
    cbn [filter]. destruct (sel_is sel n (a, x)); [|exact (IH H2)]. cbn. constructor; [|exact (IH H2)].
    intros X. apply H1. apply in_map_iff in X. destruct X as (p & <- & Hp). apply filter_In in Hp.
    apply in_map. exact (proj1 Hp). }
  pose proof (remove_node_split e [] es N) as RN. exact RN.
Qed.

Lemma delete_in_edges fuel m LN OD ID E n : grep m LN OD ID E -> ID n = true ->
  length (map fst (filter (sel_is e_tgt n) E)) <= fuel ->
  exists m', delete_all m_in delete_edge fuel (HL n) m = Ok m' /\
             grep m' LN OD ID (not_to e_tgt n E) /\ m_node m' = m_node m.
Proof.
  intros R HD Hf.
  destruct (delete_all_spec m_in delete_edge
              (fun xs s => exists E', grep s LN OD ID E' /\ xs = map fst (filter (sel_is e_tgt n) E') /\
                                      not_to e_tgt n E' = not_to e_tgt n E /\ m_node s = m_node m) (HL n))
    with (xs := map fst (filter (sel_is e_tgt n) E)) (fuel := fuel) (s := m) as (m' & E1 & E' & R' & Enil & EE & EN).
  - intros xs s (E' & R' & -> & _). 
    destruct (hr_list _ _ _ (gr_i _ _ _ _ _ R') n (map fst (filter (sel_is e_tgt n) E'))) as (A & _).
    { unfold elist. rewrite HD. reflexivity. }
    eexists. exact A.
  - intros e es s (E' & R' & Hes & EE & EN). symmetry in Hes.
    destruct (head_edge _ _ _ _ _ Hes) as (x & Hx & Hs).
    destruct (delete_edge_ok s LN OD ID E' e x R' Hx) as (s' & E1 & R1 & N1).
    exists s'. split; [exact E1|]. exists (no_edge e E'). split; [exact R1|].
    assert (ND := gr_nd _ _ _ _ _ R'). split; [symmetry; exact (tail_edges _ _ _ _ _ ND Hes)|].
    split; [rewrite (not_to_no_edge _ _ e x E' ND Hx Hs); exact EE|congruence].
  - exists E. auto.
  - exact Hf.
  - exists m'. split; [exact E1|]. split; [|exact EN].
    assert (X : E' = not_to e_tgt n E).
    { rewrite <- EE. unfold not_to. symmetry. apply filter_all. intros p Hp.
      symmetry in Enil. apply map_eq_nil in Enil. rewrite (filter_nil_all _ _ Enil p Hp). reflexivity. }
    rewrite <- X. exact R'.
Qed.
Lemma delete_out_edges fuel m LN OD ID E n : grep m LN OD ID E -> OD n = true ->
  length (map fst (filter (sel_is e_src n) E)) <= fuel ->
  exists m', delete_all m_out delete_edge fuel (HL n) m = Ok m' /\
             grep m' LN OD ID (not_to e_src n E) /\ m_node m' = m_node m.
Proof.
  intros R HD Hf.
  destruct (delete_all_spec m_out delete_edge
              (fun xs s => exists E', grep s LN OD ID E' /\ xs = map fst (filter (sel_is e_src n) E') /\
                                      not_to e_src n E' = not_to e_src n E /\ m_node s = m_node m) (HL n))
    with (xs := map fst (filter (sel_is e_src n) E)) (fuel := fuel) (s := m) as (m' & E1 & E' & R' & Enil & EE & EN).
  - intros xs s (E' & R' & -> & _). 
    destruct (hr_list _ _ _ (gr_o _ _ _ _ _ R') n (map fst (filter (sel_is e_src n) E'))) as (A & _).
    { unfold elist. rewrite HD. reflexivity. }
    eexists. exact A.
  - intros e es s (E' & R' & Hes & EE & EN). symmetry in Hes.
    destruct (head_edge _ _ _ _ _ Hes) as (x & Hx & Hs).
    destruct (delete_edge_ok s LN OD ID E' e x R' Hx) as (s' & E1 & R1 & N1).
    exists s'. split; [exact E1|]. exists (no_edge e E'). split; [exact R1|].
    assert (ND := gr_nd _ _ _ _ _ R'). split; [symmetry; exact (tail_edges _ _ _ _ _ ND Hes)|].
    split; [rewrite (not_to_no_edge _ _ e x E' ND Hx Hs); exact EE|congruence].
  - exists E. auto.
  - exact Hf.
  - exists m'. split; [exact E1|]. split; [|exact EN].
    assert (X : E' = not_to e_src n E).
    { rewrite <- EE. unfold not_to. symmetry. apply filter_all. intros p Hp.
      symmetry in Enil. apply map_eq_nil in Enil. rewrite (filter_nil_all _ _ Enil p Hp). reflexivity. }
    rewrite <- X. exact R'.
Qed.

Definition off (D : nat -> bool) (n x : nat) : bool := if x =? n then false else D x.

Lemma elist_off h sel D E n : hrep h (elist sel D E) none -> D n = true ->
  filter (sel_is sel n) E = [] ->
  exists h', hdr_destroy h (HL n) = Ok h' /\ hrep h' (elist sel (off D n) E) none.
Proof.
  intros R HD HE. destruct (hrep_destroy_list h _ none n R) as (h' & E1 & R1).
  { unfold elist. rewrite HD, HE. reflexivity. }
  exists h'. split; [exact E1|]. revert R1. apply hrep_ext; [|reflexivity].
  intros l. unfold put, elist, off. destruct (l =? n); reflexivity.
Qed.

Lemma not_to_none sel n E : filter (sel_is sel n) (not_to sel n E) = [].
Proof.
  unfold not_to. rewrite filter_filter. induction E as [|p r IH]; [reflexivity|]. cbn.
  destruct (sel_is sel n p); cbn; exact IH.
Qed.

Definition cut (n : nat) (E : list (nat * edge)) : list (nat * edge) := without (fun x => x =? n) E.
Lemma cut_eq n E : not_to e_src n (not_to e_tgt n E) = cut n E.
Proof.
  unfold not_to, cut, without. rewrite filter_filter. apply filter_ext. intros p. unfold sel_is.
  destruct (e_src (snd p) =? n), (e_tgt (snd p) =? n); reflexivity.
Qed.

Lemma filter_len_map {A} (f g : A * edge -> bool) (E : list (A * edge)) k :
  length (map fst E) <= k -> length (map fst (filter f (filter g E))) <= k.
Proof.
  rewrite !map_length. intros H. pose proof (filter_len f (filter g E)). pose proof (filter_len g E). lia.
Qed.

Lemma delete_node_ok fuel m LN D E g ns n : grep m LN D D E -> LN g = Some ns -> In n ns ->
  D n = true -> m_node m n <> None -> length E <= fuel ->
  exists m', delete_node fuel n m = Ok m' /\
    grep m' (put LN g (Some (remove_node n ns))) (off D n) (off D n) (cut n E) /\
    m_node m' = put (m_node m) n None.
Proof.
  intros R HL Hn HD HN Hf.
  unfold delete_node. destruct (m_node m n) as [c|] eqn:EC; [|congruence]. cbn [of_opt bind].
  destruct (hrep_delete_linked _ _ _ g ns n (gr_n _ _ _ _ _ R) HL Hn) as (hn & E1 & R1).
  rewrite E1. cbn [bind].
  assert (R2 : grep (set_nodes m hn) (put LN g (Some (remove_node n ns))) D D E).
  { destruct R as [a b c' d e f]. constructor; assumption. }
  destruct (delete_in_edges fuel _ _ _ _ _ n R2 HD) as (m1 & E2 & R3 & N3).
  { rewrite map_length. pose proof (filter_len (sel_is e_tgt n) E). lia. }
  rewrite E2. cbn [bind].
  destruct (elist_off _ _ _ _ n (gr_i _ _ _ _ _ R3) HD (not_to_none _ _ _)) as (hi & E3 & R4).
  rewrite E3. cbn [bind].
  assert (R5 : grep (set_in m1 hi) (put LN g (Some (remove_node n ns))) D (off D n) (not_to e_tgt n E)).
  { destruct R3 as [a b c' d e f]. constructor; try assumption.
    intros e0 x He. destruct (f e0 x He) as [F1 F2]. split; [exact F1|]. unfold off.
    destruct (Nat.eqb_spec (e_tgt x) n) as [X|X]; [|exact F2]. exfalso.
    unfold not_to in He. apply filter_In in He. destruct He as [_ He]. unfold sel_is in He. cbn in He.
    rewrite X, Nat.eqb_refl in He. discriminate. }
  destruct (delete_out_edges fuel _ _ _ _ _ n R5 HD) as (m2 & E4 & R6 & N6).
  { rewrite map_length. unfold not_to. pose proof (filter_len (sel_is e_src n) (filter (fun p => negb (sel_is e_tgt n p)) E)).
    pose proof (filter_len (fun p => negb (sel_is e_tgt n p)) E). lia. }
  rewrite E4. cbn [bind].
  destruct (elist_off _ _ _ _ n (gr_o _ _ _ _ _ R6) HD (not_to_none _ _ _)) as (ho & E5 & R7).
  rewrite E5. cbn [bind]. eexists. split; [reflexivity|]. split.
  - rewrite <- cut_eq. destruct R6 as [a b c' d e f].
    constructor; try assumption.
    intros e0 x He. destruct (f e0 x He) as [F1 F2]. split; [|exact F2]. unfold off.
    destruct (Nat.eqb_spec (e_src x) n) as [X|X]; [|exact F1]. exfalso.
    unfold not_to in He at 1. apply filter_In in He. destruct He as [_ He]. unfold sel_is in He. cbn in He.
    rewrite X, Nat.eqb_refl in He. discriminate.
  - cbn [set_node set_out m_node]. rewrite N6. cbn [set_in m_node]. rewrite N3. reflexivity.
Qed.

Lemma grep_ext m LN LN' OD OD' ID ID' E :
  (forall g, LN g = LN' g) -> (forall n, OD n = OD' n) -> (forall n, ID n = ID' n) ->
  grep m LN OD ID E -> grep m LN' OD' ID' E.
Proof.
  intros H1 H2 H3 [a b c d e f]. constructor; try assumption.
  - revert a. apply hrep_ext; [exact H1|reflexivity].
  - revert b. apply hrep_ext; [|reflexivity]. intros l. unfold elist. rewrite H2. reflexivity.
  - revert c. apply hrep_ext; [|reflexivity]. intros l. unfold elist. rewrite H3. reflexivity.
  - intros e0 x H. rewrite <- H2, <- H3. exact (f e0 x H).
Qed.

Definition memb (xs : list nat) (x : nat) : bool := existsb (fun y => y =? x) xs.
Lemma memb_in xs x : memb xs x = true <-> In x xs.
Proof.
  unfold memb. rewrite existsb_exists. split.
  - intros (y & Hy & E). apply Nat.eqb_eq in E. subst. exact Hy.
  - intros H. exists x. split; [exact H|apply Nat.eqb_refl].
Qed.
Lemma memb_app xs ys x : memb (xs ++ ys) x = memb xs x || memb ys x.
Proof. unfold memb. apply existsb_app. Qed.
Definition offs (D dd : nat -> bool) (x : nat) : bool := D x && negb (dd x).

Lemma without_ext dd dd' E : (forall n, dd n = dd' n) -> without dd E = without dd' E.
Proof. intros H. unfold without. apply filter_ext. intros p. rewrite !H. reflexivity. Qed.
Lemma without_len dd E : length (without dd E) <= length E.
Proof. apply filter_len. Qed.
Lemma cut_without dd E n : cut n (without dd E) = without (fun x => dd x || (x =? n)) E.
Proof.
  unfold cut, without. rewrite filter_filter. apply filter_ext. intros p.
  destruct (dd (e_src (snd p))), (dd (e_tgt (snd p))), (e_src (snd p) =? n), (e_tgt (snd p) =? n); reflexivity.
Qed.

(** The state after the nodes [done] of graph [g] have been visited, of which those with [f] are deleted. *)
Definition partly (m : gmem) (LN : nat -> option (list nat)) (D : nat -> bool) (E : list (nat * edge))
    (g : nat) (ids : list nat) (f : nat -> bool) (a r : list nat) (s : gmem) : Prop :=
  exists dn, ids = dn ++ r /\ a = filter (fun x => negb (f x)) dn /\
    grep s (put LN g (Some (a ++ r))) (offs D (memb (filter f dn))) (offs D (memb (filter f dn)))
           (without (memb (filter f dn)) E) /\
    (forall x, m_node s x = if memb (filter f dn) x then None else m_node m x).

Lemma partly_nodup m LN D E g ids f a r s : partly m LN D E g ids f a r s -> NoDup (a ++ r).
Proof.
  intros (dn & _ & _ & R & _). destruct (hr_list _ _ _ (gr_n _ _ _ _ _ R) g _ (put_same LN g _)) as (_ & _ & X).
  exact X.
Qed.

Lemma partly_del fuel m LN D E g ids f a n r s :
  NoDup ids -> (forall x, In x ids -> D x = true /\ m_node m x <> None) -> length E <= fuel ->
  f n = true -> partly m LN D E g ids f a (n :: r) s ->
  exists s', delete_node fuel n s = Ok s' /\ partly m LN D E g ids f a r s'.
Proof.
  intros ND HA Hf Fn HP. assert (ND' := partly_nodup _ _ _ _ _ _ _ _ _ _ HP).
  destruct HP as (dn & Eids & Ea & R & HN).
  assert (Hn : In n ids) by (rewrite Eids; apply in_or_app; right; left; reflexivity).
  assert (Nn : memb (filter f dn) n = false).
  { destruct (memb (filter f dn) n) eqn:X; [|reflexivity]. apply memb_in, filter_In in X.
    rewrite Eids in ND. exfalso. apply (NoDup_remove_2 _ _ _ ND). apply in_or_app. left. exact (proj1 X). }
  destruct (HA n Hn) as [A1 A2].
  destruct (delete_node_ok fuel s _ _ _ g (a ++ n :: r) n R (put_same LN g _)) as (s' & E1 & R1 & N1).
  - apply in_or_app. right. left. reflexivity.
  - unfold offs. rewrite A1, Nn. reflexivity.
  - rewrite HN, Nn. exact A2.
  - pose proof (without_len (memb (filter f dn)) E). lia.
  - exists s'. split; [exact E1|]. exists (dn ++ [n]).
    assert (MB : forall x, memb (filter f (dn ++ [n])) x = memb (filter f dn) x || (x =? n)).
    { intros x. rewrite filter_app. cbn [filter]. rewrite Fn. rewrite memb_app. unfold memb at 2. cbn.
      rewrite Bool.orb_false_r, (Nat.eqb_sym n x). reflexivity. }
    split; [rewrite <- app_assoc; exact Eids|].
    split; [rewrite filter_app; cbn [filter]; rewrite Fn; cbn; rewrite app_nil_r; exact Ea|].
    rewrite (remove_node_split n a r ND') in R1. split.
    + rewrite (without_ext _ _ E MB), <- cut_without. revert R1. apply grep_ext.
      * intros x. apply put_put.
      * intros x. unfold off, offs. rewrite MB. destruct (x =? n), (D x), (memb (filter f dn) x); reflexivity.
      * intros x. unfold off, offs. rewrite MB. destruct (x =? n), (D x), (memb (filter f dn) x); reflexivity.
    + intros x. rewrite N1, MB. unfold put. destruct (x =? n).
      * rewrite Bool.orb_true_r. reflexivity.
      * rewrite Bool.orb_false_r. apply HN.
Qed.
Lemma partly_keep m LN D E g ids f a n r s :
  f n = false -> partly m LN D E g ids f a (n :: r) s -> partly m LN D E g ids f (a ++ [n]) r s.
Proof.
  intros Fn (dn & Eids & Ea & R & HN). exists (dn ++ [n]).
  split; [rewrite <- app_assoc; exact Eids|].
  rewrite !filter_app. cbn [filter]. rewrite Fn. cbn [negb]. rewrite app_nil_r.
  split; [rewrite Ea; reflexivity|]. split; [|exact HN]. rewrite <- app_assoc. exact R.
Qed.

Lemma partly_start m LN D E g ids f : grep m LN D D E -> LN g = Some ids ->
  partly m LN D E g ids f [] ids m.
Proof.
  intros R HL. exists []. split; [reflexivity|]. split; [reflexivity|]. split.
  - assert (W : without (memb (filter f [])) E = E) by (apply filter_all; reflexivity).
    rewrite W. revert R. apply grep_ext.
    + intros x. unfold put. destruct (Nat.eqb_spec x g) as [->|]; [exact HL|reflexivity].
    + intros x. unfold offs. cbn. rewrite Bool.andb_true_r. reflexivity.
    + intros x. unfold offs. cbn. rewrite Bool.andb_true_r. reflexivity.
  - reflexivity.
Qed.

Lemma nodes_of_clear fuel m LN D E g ids f :
  grep m LN D D E -> LN g = Some ids -> (forall x, In x ids -> D x = true /\ m_node m x <> None) ->
  length E <= fuel -> length ids <= fuel ->
  exists m', g_clear_if fuel m g f = Ok m' /\
    partly m LN D E g ids f (filter (fun x => negb (f x)) ids) [] m'.
Proof.
  intros R HLg HA HfE Hfn.
  destruct (hr_list _ _ _ (gr_n _ _ _ _ _ R) _ _ HLg) as (A & _ & ND).
  unfold g_clear_if, clear_if, l_begin. rewrite A. cbn [of_opt bind c_next].
  apply (clear_from_spec m_nodes (delete_node fuel) (partly m LN D E g ids f) f) with (a := @nil nat).
  - intros a n r s (dn & _ & _ & R1 & _).
    destruct (hr_list _ _ _ (gr_n _ _ _ _ _ R1) g _ (put_same LN g _)) as (_ & DL & _).
    destruct r as [|k r]; [exact (dll_last _ a _ n DL)|]. exact (proj1 (dll_step _ a _ n k r DL)).
  - intros a n r s HP Fn. exact (partly_del fuel m LN D E g ids f a n r s ND HA HfE Fn HP).
  - intros a n r s HP Fn. exact (partly_keep m LN D E g ids f a n r s Fn HP).
  - exact (partly_start m LN D E g ids f R HLg).
  - exact Hfn.
Qed.

Lemma nodes_of_destroy fuel m LN D E g ids :
  grep m LN D D E -> LN g = Some ids -> (forall x, In x ids -> D x = true /\ m_node m x <> None) ->
  length E <= fuel -> length ids <= fuel ->
  exists m', delete_all m_nodes (delete_node fuel) fuel (HL g) m = Ok m' /\
    partly m LN D E g ids (fun _ => true) [] [] m'.
Proof.
  intros R HLg HA HfE Hfn.
  destruct (hr_list _ _ _ (gr_n _ _ _ _ _ R) _ _ HLg) as (_ & _ & ND).
  apply (delete_all_spec m_nodes (delete_node fuel) (partly m LN D E g ids (fun _ => true) []) (HL g)) with (xs := ids).
  - intros xs s (dn & _ & _ & R1 & _).
    destruct (hr_list _ _ _ (gr_n _ _ _ _ _ R1) g _ (put_same LN g _)) as (X & _). eexists. exact X.
  - intros n xs s HP. exact (partly_del fuel m LN D E g ids _ [] n xs s ND HA HfE eq_refl HP).
  - exact (partly_start m LN D E g ids _ R HLg).
  - exact Hfn.
Qed.

(** * Programs over graphs *)

Definition ids (w : graphs) (g : nat) : option (list nat) := option_map (map n_id) (gr_nodes w g).
Record Rep (m : gmem) (w : graphs) : Prop := MkRep {
  rp_dom : exists D, grep m (ids w) D D (gr_edges w) /\
                     (forall n, D n = true <-> node_in w n);
  rp_node : forall n, m_node m n <> None <-> node_in w n;
  rp_data : forall g ns x, gr_nodes w g = Some ns -> In x ns -> m_node m (n_id x) = Some (n_name x, n_task x) }.

Definition gbounded (k : nat) (w : graphs) : Prop :=
  length (gr_edges w) <= k /\ forall g ns, gr_nodes w g = Some ns -> length ns <= k.

Lemma ids_some w g ns : gr_nodes w g = Some ns -> ids w g = Some (map n_id ns).
Proof. intros E. unfold ids. rewrite E. reflexivity. Qed.
Lemma ids_put w (G : nat -> option (list dnode)) E g v x :
  (forall y, G y = put (gr_nodes w) g v y) -> ids (Graphs G E) x = put (ids w) g (option_map (map n_id) v) x.
Proof. intros H. unfold ids. cbn [gr_nodes]. rewrite H. unfold put. destruct (x =? g); reflexivity. Qed.

Lemma map_filter_ids (f : nat -> bool) ns :
  map n_id (filter (fun x => negb (f (n_id x))) ns) = filter (fun x => negb (f x)) (map n_id ns).
Proof. induction ns as [|x r IH]; [reflexivity|]. cbn. destruct (f (n_id x)); cbn; rewrite IH; reflexivity. Qed.

Lemma among_memb ns n : among ns n = memb (map n_id ns) n.
Proof. unfold among, memb. induction ns as [|x r IH]; [reflexivity|]. cbn. rewrite IH. reflexivity. Qed.

Lemma memb_filter f xs n : memb (filter f xs) n = memb xs n && f n.
Proof.
  destruct (memb xs n && f n) eqn:E.
  - apply Bool.andb_true_iff in E. destruct E as [E1 E2]. apply memb_in in E1. apply memb_in, filter_In. auto.
  - destruct (memb (filter f xs) n) eqn:X; [|reflexivity]. apply memb_in, filter_In in X. destruct X as [X1 X2].
    apply memb_in in X1. rewrite X1, X2 in E. discriminate.
Qed.

Lemma gdoes_bounded k w op w' : gdoes w op w' -> gbounded k w -> gbounded (S k) w'.
Proof.
  intros HD [HE HB].
  destruct HD; (split; [cbn [gr_edges length]; try lia; try (eapply Nat.le_trans; [apply without_len|lia])|]);
    intros g0 ys; cbn [gr_nodes]; unfold put;
    repeat (match goal with |- context [?a =? ?b] => destruct (Nat.eqb_spec a b) as [->|] end);
    intros E; try (injection E as <-); try discriminate; try (apply HB in E; lia); cbn [length]; try lia.
  - apply HB in H. lia.
  - apply HB in H. pose proof (filter_len (fun x => negb (f (n_id x))) ns) as FL. lia.
  - apply HB in H0. lia.
  - apply HB in H1. lia.
Qed.

Lemma without_nothing dd E : (forall p, In p E -> dd (e_src (snd p)) = false /\ dd (e_tgt (snd p)) = false) ->
  without dd E = E.
Proof. intros H. apply filter_all. intros p Hp. destruct (H p Hp) as [-> ->]. reflexivity. Qed.

(** Node [n] is in at most one graph, once. *)
Lemma node_unique m w g g' ns ns' x y : Rep m w -> gr_nodes w g = Some ns -> gr_nodes w g' = Some ns' ->
  In x ns -> In y ns' -> n_id x = n_id y -> g = g' /\ x = y.
Proof.
  intros R Hg Hg' Hx Hy E. destruct (rp_dom _ _ R) as (D & G & _).
  assert (g = g').
  { apply (hr_disj _ _ _ (gr_n _ _ _ _ _ G) g g' _ _ (n_id x) (ids_some _ _ _ Hg) (ids_some _ _ _ Hg')).
    - apply in_map. exact Hx.
    - rewrite E. apply in_map. exact Hy. }
  split; [exact H|]. subst g'. rewrite Hg in Hg'. injection Hg' as <-.
  destruct (hr_list _ _ _ (gr_n _ _ _ _ _ G) _ _ (ids_some _ _ _ Hg)) as (_ & _ & ND).
  clear - ND Hx Hy E. induction ns as [|z r IH]; [destruct Hx|]. cbn in ND. inversion ND; subst.
  destruct Hx as [->|Hx]; destruct Hy as [->|Hy]; [reflexivity| | |exact (IH Hx Hy H2)].
  - exfalso. apply H1. rewrite E. apply in_map. exact Hy.
  - exfalso. apply H1. rewrite <- E. apply in_map. exact Hx.
Qed.

Lemma rep0 : Rep gmem0 graphs0.
Proof.
  constructor.
  - exists (fun _ => false). split.
    + constructor; cbn.
      * constructor; cbn; try discriminate; try reflexivity; try (intros; contradiction).
      * constructor; unfold elist; cbn; try discriminate; try reflexivity; try (intros; contradiction).
      * constructor; unfold elist; cbn; try discriminate; try reflexivity; try (intros; contradiction).
      * constructor.
      * intros e x. split; [discriminate|intros []].
      * intros e x [].
    + intros n. split; [discriminate|]. intros (g & ns & X & _). discriminate.
  - intros n. split; [intros X; exfalso; apply X; reflexivity|]. intros (g & ns & X & _). discriminate.
  - intros g ns x X. discriminate.
Qed.

Lemma map_nodes_in w g ns n : gr_nodes w g = Some ns -> In n (map n_id ns) -> node_in w n.
Proof. intros H1 H2. exists g, ns. auto. Qed.

Lemma rep_new m w g : Rep m w -> gr_nodes w g = None ->
  exists m', g_new m g = Ok m' /\ Rep m' (Graphs (put (gr_nodes w) g (Some [])) (gr_edges w)).
Proof.
  intros [(D & G & HD) HN HX] Hg. destruct G as [a b c d e f].
  destruct (hrep_new_list _ _ _ g a) as (h' & E1 & R1); [unfold ids; rewrite Hg; reflexivity|].
  unfold g_new. rewrite E1. cbn [bind]. eexists. split; [reflexivity|].
  assert (NI : forall n, node_in (Graphs (put (gr_nodes w) g (Some [])) (gr_edges w)) n <-> node_in w n).
  { intros n. split; intros (g' & ns & X & Y).
    - cbn [gr_nodes] in X. unfold put in X. destruct (Nat.eqb_spec g' g) as [->|]; [injection X as <-; destruct Y|].
      exists g', ns. auto.
    - exists g', ns. cbn [gr_nodes]. rewrite put_other by congruence. auto. }
  constructor.
  - exists D. split; [|intros n; rewrite NI; apply HD]. constructor; try assumption.
    revert R1. apply hrep_ext; [|reflexivity]. intros x. symmetry.
    exact (ids_put w _ _ g (Some []) x (fun y => eq_refl)).
  - intros n. rewrite NI. apply HN.
  - intros g' ns x X Y. cbn [gr_nodes] in X. unfold put in X.
    destruct (Nat.eqb_spec g' g) as [->|]; [injection X as <-; destruct Y|]. exact (HX g' ns x X Y).
Qed.

Lemma elist_nil sel E n m' w : Rep m' w -> gr_edges w = E -> ~ node_in w n ->
  sel = e_src \/ sel = e_tgt -> filter (sel_is sel n) E = [].
Proof.
  intros [(D0 & G & HD) _ _] <- Hn Hs.
  destruct (filter (sel_is sel n) (gr_edges w)) as [|[e x] r] eqn:EF; [reflexivity|].
  assert (X : In (e, x) (filter (sel_is sel n) (gr_edges w))) by (rewrite EF; left; reflexivity).
  apply filter_In in X. destruct X as [X1 X2]. apply Nat.eqb_eq in X2. cbn in X2.
  destruct (gr_end _ _ _ _ _ G e x X1) as [Y1 Y2]. exfalso. apply Hn. apply HD.
  destruct Hs as [-> | ->]; congruence.
Qed.

Definition on (D : nat -> bool) (n x : nat) : bool := (x =? n) || D x.

Lemma rep_emplace m w g n name t ns : Rep m w -> gr_nodes w g = Some ns -> ~ node_in w n ->
  exists m', g_emplace m g n name t = Ok m' /\
             Rep m' (Graphs (put (gr_nodes w) g (Some (DNode n name t :: ns))) (gr_edges w)).
Proof.
  intros R Hg Hn. assert (FS := elist_nil e_src _ n m w R eq_refl Hn (or_introl eq_refl)).
  assert (FT := elist_nil e_tgt _ n m w R eq_refl Hn (or_intror eq_refl)).
  destruct R as [(D & G & HD) HN HX]. destruct G as [a b c d e f].
  assert (Dn : D n = false).
  { destruct (D n) eqn:X; [|reflexivity]. apply HD in X. contradiction. }
  assert (Mn : m_node m n = None).
  { destruct (m_node m n) eqn:X; [|reflexivity]. exfalso. apply Hn, HN. congruence. }
  unfold g_emplace. rewrite Mn. cbn [set_node m_out m_in m_nodes].
  destruct (hrep_new_list _ _ _ n b) as (ho & E1 & R1); [unfold elist; rewrite Dn; reflexivity|].
  destruct (hrep_new_list _ _ _ n c) as (hi & E2 & R2); [unfold elist; rewrite Dn; reflexivity|].
  destruct (hrep_emplace _ _ _ g (map n_id ns) n a) as (hn & E3 & R3).
  { split; [intros []|]. intros l xs X Y. unfold ids in X. destruct (gr_nodes w l) as [ns'|] eqn:EL; [|discriminate].
    injection X as <-. apply Hn. exact (map_nodes_in w l ns' n EL Y). }
  { exact (ids_some w g ns Hg). }
  rewrite E1. cbn [bind]. rewrite E2. cbn [bind]. rewrite E3. cbn [bind]. eexists. split; [reflexivity|].
  set (w' := Graphs _ _).
  assert (NI : forall x, node_in w' x <-> x = n \/ node_in w x).
  { intros x. split.
    - intros (g' & ms & X & Y). subst w'. cbn [gr_nodes] in X. unfold put in X.
      destruct (Nat.eqb_spec g' g) as [->|].
      + injection X as <-. cbn in Y. destruct Y as [<-|Y]; [left; reflexivity|].
        right. exact (map_nodes_in w g ns x Hg Y).
      + right. exists g', ms. auto.
    - intros [->|(g' & ms & X & Y)].
      + exists g, (DNode n name t :: ns). subst w'. cbn [gr_nodes]. rewrite put_same. split; [reflexivity|left; reflexivity].
      + destruct (Nat.eq_dec g' g) as [->|N].
        * exists g, (DNode n name t :: ns). subst w'. cbn [gr_nodes]. rewrite put_same. split; [reflexivity|].
          right. rewrite Hg in X. injection X as <-. exact Y.
        * exists g', ms. subst w'. cbn [gr_nodes]. rewrite put_other by exact N. auto. }
  constructor.
  - exists (on D n). split.
    + constructor; cbn [m_nodes m_out m_in m_edge set_nodes set_out set_in set_node].
      * revert R3. apply hrep_ext; [|reflexivity]. intros x. symmetry.
        exact (ids_put w _ _ g (Some (DNode n name t :: ns)) x (fun y => eq_refl)).
      * revert R1. apply hrep_ext; [|reflexivity]. intros x. unfold put, elist, on. subst w'. cbn [gr_edges].
        destruct (Nat.eqb_spec x n) as [->|]; cbn [orb]; [rewrite FS; reflexivity|reflexivity].
      * revert R2. apply hrep_ext; [|reflexivity]. intros x. unfold put, elist, on. subst w'. cbn [gr_edges].
        destruct (Nat.eqb_spec x n) as [->|]; cbn [orb]; [rewrite FT; reflexivity|reflexivity].
      * exact d.
      * exact e.
      * intros e0 x H. destruct (f e0 x H) as [F1 F2]. unfold on. rewrite F1, F2, !Bool.orb_true_r. auto.
    + intros x. rewrite NI. unfold on. rewrite Bool.orb_true_iff, Nat.eqb_eq, HD. reflexivity.
  - intros x. rewrite NI. cbn [m_node set_nodes set_out set_in set_node]. unfold put.
    destruct (Nat.eqb_spec x n) as [->|N].
    + split; [auto|discriminate].
    + rewrite HN. split; [auto|]. intros [X|X]; [contradiction|exact X].
  - intros g' ms x X Y. cbn [m_node set_nodes set_out set_in set_node].
    assert (XX : In x ms -> (x = DNode n name t \/ (n_id x <> n /\ m_node m (n_id x) = Some (n_name x, n_task x)))).
    { intros _. subst w'. cbn [gr_nodes] in X. unfold put in X. destruct (Nat.eqb_spec g' g) as [->|].
      - injection X as <-. destruct Y as [<-|Y]; [left; reflexivity|]. right.
        split; [|exact (HX g ns x Hg Y)]. intros Z. apply Hn. rewrite <- Z.
        apply (map_nodes_in w g ns _ Hg). apply in_map. exact Y.
      - right. split; [|exact (HX g' ms x X Y)]. intros Z. apply Hn. rewrite <- Z.
        apply (map_nodes_in w g' ms _ X). apply in_map. exact Y. }
    destruct (XX Y) as [->|[N Z]].
    + cbn [n_id n_name n_task]. apply put_same.
    + rewrite put_other by exact N. exact Z.
Qed.

Lemma rep_add_edge m w e x : Rep m w -> ~ In e (map fst (gr_edges w)) ->
  node_in w (e_src x) -> node_in w (e_tgt x) ->
  exists m', g_add_edge m e x = Ok m' /\ Rep m' (Graphs (gr_nodes w) ((e, x) :: gr_edges w)).
Proof.
  intros [(D & G & HD) HN HX] He Hs Ht. destruct G as [a b c d ee f].
  assert (Me : m_edge m e = None).
  { destruct (m_edge m e) as [y|] eqn:X; [|reflexivity]. exfalso. apply He. apply ee in X. exact (in_map fst _ _ X). }
  assert (DD : forall sel, dead (elist sel D (gr_edges w)) none e).
  { intros sel. split; [intros []|]. intros l xs X Y. unfold elist in X. destruct (D l); [|discriminate].
    injection X as <-. apply He. apply in_map_iff in Y. destruct Y as (p & <- & Hp). apply filter_In in Hp.
    apply in_map. exact (proj1 Hp). }
  unfold g_add_edge. rewrite Me. cbn [set_edge m_out m_in].
  destruct (hrep_new_node _ _ _ e c (DD e_tgt)) as (hi0 & E1 & R1).
  destruct (hrep_emplace _ _ _ (e_src x) (map fst (filter (sel_is e_src (e_src x)) (gr_edges w))) e b (DD e_src)) as (ho & E2 & R2).
  { unfold elist. rewrite (proj2 (HD _) Hs). reflexivity. }
  destruct (hrep_link _ _ _ (e_tgt x) (map fst (filter (sel_is e_tgt (e_tgt x)) (gr_edges w))) e R1 (or_introl eq_refl)) as (hi & E3 & R3).
  { unfold elist. rewrite (proj2 (HD _) Ht). reflexivity. }
  rewrite E1. cbn [bind]. rewrite E2. cbn [bind]. rewrite E3. cbn [bind]. eexists. split; [reflexivity|].
  assert (EX : forall sel n, D (sel x) = true ->
    put (elist sel D (gr_edges w)) (sel x) (Some (e :: map fst (filter (sel_is sel (sel x)) (gr_edges w)))) n =
    elist sel D ((e, x) :: gr_edges w) n).
  { intros sel n Hd. unfold put, elist. cbn [filter]. change (sel_is sel n (e, x)) with (sel x =? n).
    destruct (Nat.eqb_spec n (sel x)) as [->|N].
    - rewrite Hd, Nat.eqb_refl. reflexivity.
    - destruct (Nat.eqb_spec (sel x) n); [congruence|reflexivity]. }
  constructor.
  - exists D. split; [|exact HD]. constructor; cbn [m_nodes m_out m_in m_edge set_edge set_out set_in gr_edges].
    + exact a.
    + revert R2. apply hrep_ext; [|reflexivity]. intros n. apply EX, HD, Hs.
    + revert R3. apply hrep_ext; [|intros n; unfold none; split; [intros [[->|[]] N]; congruence|intros []]].
      intros n. apply EX, HD, Ht.
    + cbn. constructor; assumption.
    + intros e' x'. unfold put. cbn [In]. destruct (Nat.eqb_spec e' e) as [->|N].
      * split; [intros X; injection X as <-; left; reflexivity|].
        intros [X|X]; [congruence|]. exfalso. apply He. exact (in_map fst _ _ X).
      * rewrite ee. split; [auto|]. intros [X|X]; [congruence|exact X].
    + intros e' x' [X|X]; [|exact (f e' x' X)]. injection X as <- <-. split; apply HD; assumption.
  - exact HN.
  - exact HX.
Qed.

Lemma rep_edges_alive m w p : Rep m w -> In p (gr_edges w) ->
  node_in w (e_src (snd p)) /\ node_in w (e_tgt (snd p)).
Proof.
  intros [(D & G & HD) _ _] Hp. destruct p as [e x].
  destruct (gr_end _ _ _ _ _ G e x Hp) as [A B]. split; apply HD; assumption.
Qed.

Lemma ids_alive m w g ns D : (forall n, D n = true <-> node_in w n) -> (forall n, m_node m n <> None <-> node_in w n) ->
  gr_nodes w g = Some ns -> forall x, In x (map n_id ns) -> D x = true /\ m_node m x <> None.
Proof. intros HD HN Hg x Hx. assert (node_in w x) by (exists g, ns; auto). split; [apply HD|apply HN]; assumption. Qed.

Lemma rep_clear fuel m w g f ns : Rep m w -> gr_nodes w g = Some ns -> gbounded fuel w ->
  exists m', g_clear_if fuel m g f = Ok m' /\
    Rep m' (Graphs (put (gr_nodes w) g (Some (filter (fun x => negb (f (n_id x))) ns)))
                   (without (fun n => among ns n && f n) (gr_edges w))).
Proof.
  intros R Hg [BE BN]. assert (RR := R). destruct R as [(D & G & HD) HN HX].
  destruct (nodes_of_clear fuel m _ D _ g (map n_id ns) f G (ids_some w g ns Hg)
              (ids_alive m w g ns D HD HN Hg) BE) as (m' & E1 & dn & Eids & _ & G' & N').
  { rewrite map_length. exact (BN _ _ Hg). }
  exists m'. split; [exact E1|]. rewrite app_nil_r in Eids. subst dn.
  assert (MB : forall n, memb (filter f (map n_id ns)) n = among ns n && f n).
  { intros n. rewrite memb_filter, among_memb. reflexivity. }
  rewrite app_nil_r in G'. rewrite (without_ext _ _ _ MB) in G'.
  set (w' := Graphs _ _).
  assert (NI : forall x, node_in w' x <-> node_in w x /\ (among ns x && f x) = false).
  { intros x. split.
    - intros (g' & ms & X & Y). subst w'. cbn [gr_nodes] in X. unfold put in X.
      destruct (Nat.eqb_spec g' g) as [->|N].
      + injection X as <-. rewrite map_filter_ids in Y. apply filter_In in Y. destruct Y as [Y1 Y2].
        split; [exists g, ns; auto|]. apply Bool.negb_true_iff in Y2. rewrite Y2. apply Bool.andb_false_r.
      + split; [exists g', ms; auto|]. destruct (among ns x) eqn:A; [|reflexivity]. exfalso.
        rewrite among_memb in A. apply memb_in in A.
        apply N. exact (hr_disj _ _ _ (gr_n _ _ _ _ _ G) _ _ _ _ x (ids_some _ _ _ X) (ids_some _ _ _ Hg) Y A).
    - intros ((g' & ms & X & Y) & Z). destruct (Nat.eq_dec g' g) as [->|N].
      + rewrite Hg in X. injection X as <-. exists g, (filter (fun x => negb (f (n_id x))) ns).
        subst w'. cbn [gr_nodes]. rewrite put_same. split; [reflexivity|]. rewrite map_filter_ids. apply filter_In.
        split; [exact Y|]. assert (A : among ns x = true) by (rewrite among_memb; apply memb_in; exact Y).
        rewrite A in Z. cbn in Z. rewrite Z. reflexivity.
      + exists g', ms. subst w'. cbn [gr_nodes]. rewrite put_other by exact N. auto. }
  constructor.
  - exists (offs D (fun n => among ns n && f n)). split.
    + revert G'. apply grep_ext.
      * intros x. symmetry. unfold w'. rewrite (ids_put w _ (without (fun n => among ns n && f n) (gr_edges w)) g (Some (filter (fun x => negb (f (n_id x))) ns)) x (fun y => eq_refl)).
        cbn [option_map]. rewrite map_filter_ids. reflexivity.
      * intros x. unfold offs. rewrite MB. reflexivity.
      * intros x. unfold offs. rewrite MB. reflexivity.
    + intros x. rewrite NI. unfold offs. rewrite Bool.andb_true_iff, Bool.negb_true_iff, HD. reflexivity.
  - intros x. rewrite NI, N', MB. destruct (among ns x && f x).
    + split; [intros X; exfalso; apply X; reflexivity|]. intros [_ X]. discriminate.
    + rewrite HN. split; [auto|tauto].
  - intros g' ms x X Y.
    assert (NX : node_in w' (n_id x)) by (exists g', ms; split; [exact X|apply in_map; exact Y]).
    apply NI in NX. destruct NX as [_ NX]. rewrite N', MB, NX.
    subst w'. cbn [gr_nodes] in X. unfold put in X. destruct (Nat.eqb_spec g' g) as [->|N].
    + injection X as <-. apply filter_In in Y. exact (HX g ns x Hg (proj1 Y)).
    + exact (HX g' ms x X Y).
Qed.

Lemma rep_destroy fuel m w g ns : Rep m w -> gr_nodes w g = Some ns -> gbounded fuel w ->
  exists m', g_destroy fuel m g = Ok m' /\
    Rep m' (Graphs (put (gr_nodes w) g None) (without (among ns) (gr_edges w))).
Proof.
  intros R Hg [BE BN]. assert (RR := R). destruct R as [(D & G & HD) HN HX].
  destruct (nodes_of_destroy fuel m _ D _ g (map n_id ns) G (ids_some w g ns Hg)
              (ids_alive m w g ns D HD HN Hg) BE) as (m1 & E1 & dn & Eids & _ & G' & N').
  { rewrite map_length. exact (BN _ _ Hg). }
  rewrite app_nil_r in Eids. subst dn.
  assert (MB : forall n, memb (filter (fun _ => true) (map n_id ns)) n = among ns n).
  { intros n. rewrite memb_filter, among_memb. apply Bool.andb_true_r. }
  rewrite app_nil_r in G'. rewrite (without_ext _ _ _ MB) in G'. 
  destruct (hrep_destroy_list _ _ _ g (gr_n _ _ _ _ _ G') (put_same _ _ _)) as (h2 & E2 & R2).
  unfold g_destroy. rewrite E1. cbn [bind]. rewrite E2. cbn [bind]. eexists. split; [reflexivity|].
  set (w' := Graphs _ _).
  assert (NI : forall x, node_in w' x <-> node_in w x /\ among ns x = false).
  { intros x. split.
    - intros (g' & ms & X & Y). subst w'. cbn [gr_nodes] in X. unfold put in X.
      destruct (Nat.eqb_spec g' g) as [->|N]; [discriminate|].
      split; [exists g', ms; auto|]. destruct (among ns x) eqn:A; [|reflexivity]. exfalso.
      rewrite among_memb in A. apply memb_in in A.
      apply N. exact (hr_disj _ _ _ (gr_n _ _ _ _ _ G) _ _ _ _ x (ids_some _ _ _ X) (ids_some _ _ _ Hg) Y A).
    - intros ((g' & ms & X & Y) & Z). destruct (Nat.eq_dec g' g) as [->|N].
      + rewrite Hg in X. injection X as <-.
        assert (A : among ns x = true) by (rewrite among_memb; apply memb_in; exact Y). congruence.
      + exists g', ms. subst w'. cbn [gr_nodes]. rewrite put_other by exact N. auto. }
  constructor.
  - exists (offs D (among ns)). split.
    + destruct G' as [a b c d e f].
      assert (EO : forall n, offs D (memb (filter (fun _ => true) (map n_id ns))) n = offs D (among ns) n).
      { intros n. unfold offs. rewrite MB. reflexivity. }
      constructor; cbn [m_nodes m_out m_in m_edge set_nodes].
      * revert R2. apply hrep_ext; [|reflexivity]. intros x. rewrite put_put. symmetry.
        exact (ids_put w _ _ g None x (fun y => eq_refl)).
      * revert b. apply hrep_ext; [|reflexivity]. intros x. unfold elist. rewrite EO. reflexivity.
      * revert c. apply hrep_ext; [|reflexivity]. intros x. unfold elist. rewrite EO. reflexivity.
      * exact d.
      * exact e.
      * intros e0 x H. rewrite <- !EO. exact (f e0 x H).
    + intros x. rewrite NI. unfold offs. rewrite Bool.andb_true_iff, Bool.negb_true_iff, HD. reflexivity.
  - intros x. cbn [m_node set_nodes]. rewrite NI, N', MB. destruct (among ns x).
    + split; [intros X; exfalso; apply X; reflexivity|]. intros [_ X]. discriminate.
    + rewrite HN. split; [auto|tauto].
  - intros g' ms x X Y. cbn [m_node set_nodes].
    assert (NX : node_in w' (n_id x)) by (exists g', ms; split; [exact X|apply in_map; exact Y]).
    apply NI in NX. destruct NX as [_ NX]. rewrite N', MB, NX.
    subst w'. cbn [gr_nodes] in X. unfold put in X. destruct (Nat.eqb_spec g' g) as [->|N]; [discriminate|].
    exact (HX g' ms x X Y).
Qed.

Lemma ids_move w this other ns x : gr_nodes w other = Some ns ->
  put (put (ids w) other (Some [])) this (Some (map n_id ns)) x =
  ids (Graphs (put (put (gr_nodes w) other (Some [])) this (Some ns)) (gr_edges w)) x.
Proof.
  intros H. unfold ids. cbn [gr_nodes]. unfold put. destruct (x =? this); [reflexivity|].
  destruct (x =? other); reflexivity.
Qed.

Lemma rep_moved m w this other ns h' : Rep m w ->
  this <> other -> gr_nodes w this = None \/ gr_nodes w this = Some [] -> gr_nodes w other = Some ns ->
  hrep h' (put (put (ids w) other (Some [])) this (Some (map n_id ns))) none ->
  Rep (set_nodes m h') (Graphs (put (put (gr_nodes w) other (Some [])) this (Some ns)) (gr_edges w)).
Proof.
  intros [(D & G & HD) HN HX] N Ht Ho RH. set (w' := Graphs _ _).
  assert (HT : forall ms x, gr_nodes w this = Some ms -> In x ms -> False).
  { intros ms x X Y. destruct Ht as [Ht|Ht]; rewrite Ht in X; [discriminate|injection X as <-; destruct Y]. }
  assert (NI : forall x, node_in w' x <-> node_in w x).
  { intros x. split; intros (g & ms & X & Y).
    - subst w'. cbn [gr_nodes] in X. unfold put in X. destruct (Nat.eqb_spec g this) as [->|].
      + injection X as <-. exists other, ns. auto.
      + destruct (Nat.eqb_spec g other) as [->|]; [injection X as <-; destruct Y|]. exists g, ms. auto.
    - destruct (Nat.eq_dec g other) as [->|No].
      + exists this, ns. subst w'. cbn [gr_nodes]. rewrite put_same. rewrite Ho in X. injection X as <-. auto.
      + destruct (Nat.eq_dec g this) as [->|Nt].
        * exfalso. apply in_map_iff in Y. destruct Y as (y & _ & Y). exact (HT ms y X Y).
        * exists g, ms. subst w'. cbn [gr_nodes]. rewrite !put_other by assumption. auto. }
  constructor.
  - exists D. split; [|intros n; rewrite NI; apply HD]. destruct G as [a b c d e f].
    constructor; try assumption. cbn [m_nodes set_nodes]. revert RH. apply hrep_ext; [|reflexivity].
    intros x. exact (ids_move w this other ns x Ho).
  - intros n. rewrite NI. apply HN.
  - intros g ms x X Y. cbn [m_node set_nodes]. subst w'. cbn [gr_nodes] in X. unfold put in X.
    destruct (Nat.eqb_spec g this) as [->|]; [injection X as <-; exact (HX other ns x Ho Y)|].
    destruct (Nat.eqb_spec g other) as [->|]; [injection X as <-; destruct Y|]. exact (HX g ms x X Y).
Qed.

Lemma run_gop_ok fuel w op w' m : gdoes w op w' -> Rep m w -> gbounded fuel w ->
  exists m', run_gop fuel m op = Ok m' /\ Rep m' w'.
Proof.
  intros HD R HB. destruct HD; cbn [run_gop].
  - exact (rep_new m w g R H).
  - exact (rep_emplace m w g n name t ns R H H0).
  - exact (rep_add_edge m w e x R H H0 H1).
  - exact (rep_clear fuel m w g f ns R H HB).
  - exact (rep_destroy fuel m w g ns R H HB).
  - assert (N : this <> other) by congruence.
    destruct (rp_dom _ _ R) as (D & G & _).
    destruct (hrep_move_new _ _ _ this other (map n_id ns) (gr_n _ _ _ _ _ G)) as (h' & E & R').
    { unfold ids. rewrite H. reflexivity. }
    { exact (ids_some w other ns H0). }
    unfold g_move_new. rewrite E. cbn [bind]. eexists. split; [reflexivity|].
    exact (rep_moved m w this other ns h' R N (or_introl H) H0 R').
  - destruct (rp_dom _ _ R) as (D & G & _).
    destruct (hrep_move_assign _ _ _ this other (map n_id ns) (gr_n _ _ _ _ _ G) H) as (h' & E & R').
    { exact (ids_some w this [] H0). }
    { exact (ids_some w other ns H1). }
    unfold g_move_assign. rewrite E. cbn [bind]. eexists. split; [reflexivity|].
    exact (rep_moved m w this other ns h' R H (or_intror H0) H1 R').
  - unfold g_move_assign, hdr_move_assign.
    assert (X : hid_eqb (HL g) (HL g) = true) by (apply hid_eqb_eq; reflexivity). rewrite X. cbn [bind].
    eexists. split; [reflexivity|]. destruct R as [(D & G & HD) HN HX]. constructor; [|exact HN|exact HX].
    exists D. split; [|exact HD]. destruct G. constructor; assumption.
Qed.

Lemma gbounded_mono k k' w : k <= k' -> gbounded k w -> gbounded k' w.
Proof. intros H [A B]. split; [lia|]. intros g ns E. specialize (B g ns E). lia. Qed.

Lemma run_gops_ok fuel : forall ops w w' m k, gdoes_all w ops w' -> Rep m w -> gbounded k w ->
  k + length ops <= fuel ->
  exists m', run_gops fuel m ops = Ok m' /\ Rep m' w' /\ gbounded fuel w'.
Proof.
  induction ops as [|op ops IH]; intros w w' m k HD R HB Hf; inversion HD; subst.
  - exists m. split; [reflexivity|]. split; [exact R|]. cbn [length] in Hf. apply (gbounded_mono k); [lia|exact HB].
  - cbn [length] in Hf.
    destruct (run_gop_ok fuel w op w1 m H2 R) as (h1 & E1 & R1); [apply (gbounded_mono k); [lia|exact HB]|].
    destruct (IH w1 w' h1 (S k) H4 R1 (gdoes_bounded k _ _ _ H2 HB)) as (h2 & E2 & R2); [lia|].
    exists h2. cbn [run_gops]. rewrite E1. split; [exact E2|exact R2].
Qed.

Lemma rep_shows fuel m w : Rep m w -> gbounded fuel w -> gshows fuel m w.
Proof.
  intros [(D & G & HD) HN HX] [BE BN]. split; [|split; [|split]].
  - intros g ns Hg. split.
    + apply (lrep_elements fuel _ g); [exact (hr_list _ _ _ (gr_n _ _ _ _ _ G) _ _ (ids_some _ _ _ Hg))|].
      rewrite map_length. exact (BN g ns Hg).
    + intros x Hx. split; [exact (HX g ns x Hg Hx)|].
      assert (DX : D (n_id x) = true) by (apply HD; exists g, ns; split; [exact Hg|apply in_map; exact Hx]).
      split.
      * apply (lrep_elements fuel (m_out m)).
        { apply (hr_list _ _ _ (gr_o _ _ _ _ _ G)). unfold elist. rewrite DX. reflexivity. }
        rewrite map_length. eapply Nat.le_trans; [apply filter_len|exact BE].
      * apply (lrep_elements fuel (m_in m)).
        { apply (hr_list _ _ _ (gr_i _ _ _ _ _ G)). unfold elist. rewrite DX. reflexivity. }
        rewrite map_length. eapply Nat.le_trans; [apply filter_len|exact BE].
  - exact (gr_e _ _ _ _ _ G).
  - exact HN.
  - intros g. split.
    + intros H. apply (hr_none _ _ _ (gr_n _ _ _ _ _ G)). unfold ids. rewrite H. reflexivity.
    + intros H. destruct (gr_nodes w g) as [ns|] eqn:Hg; [|reflexivity].
      destruct (hr_list _ _ _ (gr_n _ _ _ _ _ G) _ _ (ids_some _ _ _ Hg)) as (A & _). congruence.
Qed.

Lemma graph_programs fuel ops w : gdoes_all graphs0 ops w -> length ops <= fuel ->
  exists m, run_gops fuel gmem0 ops = Ok m /\ gshows fuel m w.
Proof.
  intros HD Hf.
  destruct (run_gops_ok fuel ops graphs0 w gmem0 0 HD rep0) as (m & E & R & B);
    [split; [cbn; lia|intros g ns X; discriminate]|exact Hf|].
  exists m. split; [exact E|]. exact (rep_shows fuel m w R B).
Qed.

(** Headers of nodes and edges exist exactly while they do: nothing is left behind. *)
Lemma graph_headers fuel ops w : gdoes_all graphs0 ops w -> length ops <= fuel ->
  exists m, run_gops fuel gmem0 ops = Ok m /\
    (forall n, m_nodes m (HN n) <> None <-> node_in w n) /\
    (forall n, m_out m (HL n) <> None <-> node_in w n) /\
    (forall n, m_in m (HL n) <> None <-> node_in w n) /\
    (forall e, m_out m (HN e) <> None <-> In e (map fst (gr_edges w))) /\
    (forall e, m_in m (HN e) <> None <-> In e (map fst (gr_edges w))).
Proof.
  intros HD Hf.
  destruct (run_gops_ok fuel ops graphs0 w gmem0 0 HD rep0) as (m & E & R & B);
    [split; [cbn; lia|intros g ns X; discriminate]|exact Hf|].
  exists m. split; [exact E|]. destruct R as [(D & G & HDD) _ _].
  assert (EL : forall sel h, hrep h (elist sel D (gr_edges w)) none ->
            (forall e x, In (e, x) (gr_edges w) -> D (sel x) = true) ->
            (forall n, h (HL n) <> None <-> node_in w n) /\
            (forall e, h (HN e) <> None <-> In e (map fst (gr_edges w)))).
  { intros sel h RH HE. split.
    - intros n. rewrite <- HDD. destruct (D n) eqn:X.
      + destruct (hr_list _ _ _ RH n (map fst (filter (sel_is sel n) (gr_edges w)))) as (A & _).
        { unfold elist. rewrite X. reflexivity. }
        rewrite A. split; [reflexivity|discriminate].
      + rewrite (hr_none _ _ _ RH n); [|unfold elist; rewrite X; reflexivity].
        split; [intros Y; exfalso; apply Y; reflexivity|discriminate].
    - intros e. split.
      + intros H. destruct (hr_only _ _ _ RH e H) as [[]|(l & xs & X & Y)].
        unfold elist in X. destruct (D l); [|discriminate]. injection X as <-.
        apply in_map_iff in Y. destruct Y as (p & <- & Hp). apply filter_In in Hp. apply in_map. exact (proj1 Hp).
      + intros H. apply in_map_iff in H. destruct H as ([e' x] & Ee & Hp). cbn in Ee. subst e'.
        apply (hrep_alive h _ _ (sel x) (map fst (filter (sel_is sel (sel x)) (gr_edges w))) e RH).
        * unfold elist. rewrite (HE e x Hp). reflexivity.
        * apply in_map_iff. exists (e, x). split; [reflexivity|]. apply filter_In. split; [exact Hp|].
          unfold sel_is. cbn. apply Nat.eqb_refl. }
  destruct (EL e_src _ (gr_o _ _ _ _ _ G) (fun e x H => proj1 (gr_end _ _ _ _ _ G e x H))) as [O1 O2].
  destruct (EL e_tgt _ (gr_i _ _ _ _ _ G) (fun e x H => proj2 (gr_end _ _ _ _ _ G e x H))) as [I1 I2].
  split; [|auto]. intros n. split.
  - intros H. destruct (hr_only _ _ _ (gr_n _ _ _ _ _ G) n H) as [[]|(l & xs & X & Y)].
    unfold ids in X. destruct (gr_nodes w l) as [ns|] eqn:El; [|discriminate]. injection X as <-.
    exists l, ns. auto.
  - intros (g & ns & X & Y). exact (hrep_alive _ _ _ g _ n (gr_n _ _ _ _ _ G) (ids_some _ _ _ X) Y).
Qed.
