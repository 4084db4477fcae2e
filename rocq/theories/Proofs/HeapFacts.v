(** Lists in memory: the links of every list are what its sequence says. *)
From Coq Require Import String Lia.
From Verif Require Import Model.Common Model.TaskSet Model.Dag Model.Heap Spec.Lists.
Open Scope nat_scope.
Open Scope list_scope.

Lemma hid_eqb_eq a b : hid_eqb a b = true <-> a = b.
Proof.
  destruct a, b; cbn; rewrite ?Nat.eqb_eq; split; intros H; try discriminate; try congruence.
Qed.
Lemma hupd_same h k v : hupd h k v k = v.
Proof. unfold hupd. destruct (hid_eqb k k) eqn:E; [reflexivity|]. assert (hid_eqb k k = true) by (apply hid_eqb_eq; reflexivity). congruence. Qed.
Lemma hupd_other h k v x : x <> k -> hupd h k v x = h x.
Proof. intros N. unfold hupd. destruct (hid_eqb x k) eqn:E; [|reflexivity]. apply hid_eqb_eq in E. congruence. Qed.
Lemma HN_neq n m : n <> m -> HN n <> HN m. Proof. congruence. Qed.

Ltac hs := repeat (first [ rewrite hupd_same | rewrite hupd_other by (congruence || (intros ?; congruence)) ]).

Definition head_ptr (xs : list nat) : ptr := match xs with [] => Null | n :: _ => ToNode n end.
Fixpoint dll (h : heap) (p : ptr) (xs : list nat) : Prop :=
  match xs with
  | [] => True
  | n :: r => h (HN n) = Some (Cell (head_ptr r) p) /\ dll h (ToNode n) r
  end.
Definition lrep (h : heap) (l : nat) (xs : list nat) : Prop :=
  h (HL l) = Some (Cell (head_ptr xs) Null) /\ dll h (ToHdr (HL l)) xs /\ NoDup xs.

Lemma dll_frame h h' xs : forall p,
  (forall n, In n xs -> h' (HN n) = h (HN n)) -> dll h p xs -> dll h' p xs.
Proof.
  induction xs as [|n r IH]; intros p HF D; [exact I|]. destruct D as [E D]. split.
  - rewrite HF by (left; reflexivity). exact E.
  - apply IH; [intros m Hm; apply HF; right; exact Hm|exact D].
Qed.
Lemma lrep_frame h h' l xs :
  h' (HL l) = h (HL l) -> (forall n, In n xs -> h' (HN n) = h (HN n)) -> lrep h l xs -> lrep h' l xs.
Proof.
  intros E HF (A & B & C). split; [congruence|]. split; [|exact C].
  exact (dll_frame h h' xs _ HF B).
Qed.

(** * One operation on one list *)

Lemma destroy_seg h n b : forall a k p c0,
  find_header p = Some k -> h k = Some (Cell (head_ptr (a ++ n :: b)) c0) ->
  dll h p (a ++ n :: b) -> NoDup (a ++ n :: b) ->
  (forall m, In m (a ++ n :: b) -> k <> HN m) ->
  exists h', hdr_destroy h (HN n) = Ok h' /\
    h' k = Some (Cell (head_ptr (a ++ b)) c0) /\ dll h' p (a ++ b) /\ h' (HN n) = None /\
    (forall x, x <> k -> (forall m, In m (a ++ n :: b) -> x <> HN m) -> h' x = h x).
Proof.
  induction a as [|m a IH]; intros k p c0 Hp Hk HD HN Hnk.
  - cbn [app] in *. destruct HD as [En Db]. inversion HN as [|? ? Nn Nb]; subst.
    assert (Kn : k <> Heap.HN n) by (apply Hnk; left; reflexivity).
    unfold hdr_destroy. rewrite En. cbn [of_opt bind c_next c_prev].
    destruct b as [|m b].
    + cbn [head_ptr find_header]. cbn [bind]. rewrite En. cbn [of_opt bind c_next c_prev].
      rewrite Hp. unfold set_next. rewrite Hk. cbn [of_opt bind c_prev c_next].
      eexists. split; [reflexivity|].
      split; [hs; reflexivity|]. split; [exact I|]. split; [hs; reflexivity|].
      intros x Nx Nm. rewrite hupd_other by (apply Nm; left; reflexivity).
      rewrite hupd_other by exact Nx. reflexivity.
    + cbn [head_ptr find_header] in *. destruct Db as [Em Db].
      assert (Km : k <> Heap.HN m) by (apply Hnk; right; left; reflexivity).
      assert (Nmn : m <> n) by (intros ->; apply Nn; left; reflexivity).
      inversion Nb as [|? ? Nm Nb']; subst.
      unfold set_prev. rewrite Em. cbn [of_opt bind c_next c_prev].
      rewrite hupd_other by (intros X; inversion X; congruence). rewrite En.
      cbn [of_opt bind c_next c_prev]. rewrite Hp. unfold set_next.
      rewrite hupd_other by exact Km. rewrite Hk. cbn [of_opt bind c_next c_prev].
      eexists. split; [reflexivity|].
      split; [rewrite hupd_other by exact Kn; rewrite hupd_same; reflexivity|].
      split.
      { split.
        - rewrite hupd_other by (intros X; inversion X; congruence).
          rewrite hupd_other by (intros X; apply Km; congruence).
          rewrite hupd_same. reflexivity.
        - apply (dll_frame h); [|exact Db]. intros q Hq.
          rewrite hupd_other by (intros X; inversion X; subst q; apply Nn; right; exact Hq).
          rewrite hupd_other by (intros X; apply (Hnk q); [right; right; exact Hq|congruence]).
          rewrite hupd_other by (intros X; inversion X; subst q; contradiction). reflexivity. }
      split; [hs; reflexivity|].
      intros x Nx Nxm.
      rewrite hupd_other by (apply Nxm; left; reflexivity).
      rewrite hupd_other by exact Nx.
      rewrite hupd_other by (apply Nxm; right; left; reflexivity). reflexivity.
  - cbn [app] in *. destruct HD as [Em D]. inversion HN as [|? ? Nm ND]; subst.
    destruct (IH (Heap.HN m) (ToNode m) p eq_refl Em D ND) as (h' & E & E1 & E2 & E3 & E4).
    { intros q Hq X. inversion X; subst q. contradiction. }
    assert (Km : k <> Heap.HN m) by (apply Hnk; left; reflexivity).
    exists h'. split; [exact E|]. split.
    { rewrite E4; [rewrite Hk; reflexivity|exact Km|intros q Hq; apply Hnk; right; exact Hq]. }
    split; [split; [exact E1|exact E2]|]. split; [exact E3|].
    intros x Nx Nxm. apply E4; [apply Nxm; left; reflexivity|intros q Hq; apply Nxm; right; exact Hq].
Qed.

Lemma destroy_loose h n : h (HN n) = Some (Cell Null Null) ->
  hdr_destroy h (HN n) = Ok (hupd h (HN n) None).
Proof. intros E. unfold hdr_destroy. rewrite E. cbn. rewrite E. reflexivity. Qed.
Lemma destroy_empty h l : h (HL l) = Some (Cell Null Null) ->
  hdr_destroy h (HL l) = Ok (hupd h (HL l) None).
Proof. intros E. unfold hdr_destroy. rewrite E. cbn. rewrite E. reflexivity. Qed.

Lemma link_front_one h l xs n : lrep h l xs -> h (HN n) = Some (Cell Null Null) -> ~ In n xs ->
  exists h', l_link_front h l n = Ok h' /\ lrep h' l (n :: xs) /\
    (forall x, x <> HL l -> x <> HN n -> (forall m, In m xs -> x <> HN m) -> h' x = h x).
Proof.
  intros (A & B & C) En Nn. unfold l_link_front, link_next. cbn [find_header of_opt bind].
  rewrite A. cbn [of_opt bind c_next c_prev]. unfold set_next at 1. rewrite En. cbn [of_opt bind c_next c_prev].
  rewrite hupd_same. cbn [of_opt bind c_next c_prev].
  destruct xs as [|m r].
  - cbn [head_ptr find_header bind]. unfold set_next. rewrite hupd_other by discriminate. rewrite A.
    cbn [of_opt bind c_next c_prev]. unfold set_prev. rewrite hupd_other by discriminate. rewrite hupd_same.
    cbn [of_opt bind c_next c_prev]. eexists. split; [reflexivity|]. split.
    + split; [hs; reflexivity|]. split; [|constructor; [intros []|constructor]].
      split; [hs; reflexivity|exact I].
    + intros x N1 N2 _. rewrite !hupd_other by assumption. reflexivity.
  - cbn [head_ptr find_header] in *. destruct B as [Em B].
    assert (Nmn : m <> n) by (intros ->; apply Nn; left; reflexivity).
    unfold set_prev at 1. rewrite hupd_other by (intros X; inversion X; congruence). rewrite Em.
    cbn [of_opt bind c_next c_prev]. unfold set_next. rewrite !hupd_other by discriminate. rewrite A.
    cbn [of_opt bind c_next c_prev]. unfold set_prev. rewrite hupd_other by discriminate.
    rewrite hupd_other by (intros X; inversion X; congruence). rewrite hupd_same.
    cbn [of_opt bind c_next c_prev]. eexists. split; [reflexivity|]. split.
    + split; [rewrite hupd_other by discriminate; rewrite hupd_same; reflexivity|].
      split; [|constructor; assumption].
      split; [hs; reflexivity|]. split.
      * rewrite hupd_other by (intros X; inversion X; congruence).
        rewrite hupd_other by discriminate. rewrite hupd_same. reflexivity.
      * apply (dll_frame h); [|exact B]. intros q Hq.
        rewrite hupd_other by (intros X; inversion X; subst q; apply Nn; right; exact Hq).
        rewrite hupd_other by discriminate.
        rewrite hupd_other by (intros X; inversion X; subst q; inversion C; contradiction).
        rewrite hupd_other by (intros X; inversion X; subst q; apply Nn; right; exact Hq). reflexivity.
    + intros x N1 N2 N3. rewrite hupd_other by assumption. rewrite hupd_other by assumption.
      rewrite hupd_other by (apply N3; left; reflexivity). rewrite hupd_other by assumption. reflexivity.
Qed.

Lemma move_assign_one h l l' xs : l <> l' -> lrep h l [] -> lrep h l' xs ->
  exists h', hdr_move_assign h (HL l) (HL l') = Ok h' /\ lrep h' l xs /\ lrep h' l' [] /\
    (forall x, x <> HL l -> x <> HL l' -> (forall m, In m xs -> x <> HN m) -> h' x = h x).
Proof.
  intros Nl (A & _ & _) (A' & B' & C'). unfold hdr_move_assign.
  destruct (hid_eqb (HL l) (HL l')) eqn:E; [apply hid_eqb_eq in E; congruence|].
  rewrite A, A'. cbn [of_opt bind c_next c_prev].
  destruct xs as [|m r].
  - cbn [head_ptr find_header bind]. rewrite hupd_other by congruence. rewrite hupd_same.
    cbn [of_opt bind c_next c_prev find_header]. eexists. split; [reflexivity|]. split.
    + split; [rewrite hupd_other by congruence; rewrite hupd_same; reflexivity|]. split; [exact I|constructor].
    + split.
      * split; [rewrite hupd_same; reflexivity|]. split; [exact I|constructor].
      * intros x N1 N2 _. rewrite !hupd_other by assumption. reflexivity.
  - cbn [head_ptr find_header] in *. destruct B' as [Em B'].
    unfold set_prev. rewrite !hupd_other by discriminate. rewrite Em. cbn [of_opt bind c_next c_prev].
    rewrite hupd_other by discriminate. rewrite hupd_other by congruence. rewrite hupd_same.
    cbn [of_opt bind c_next c_prev find_header]. eexists. split; [reflexivity|].
    split; [|split].
    + split; [rewrite hupd_other by discriminate; rewrite hupd_other by congruence; rewrite hupd_same; reflexivity|].
      split; [|exact C'].
      split; [rewrite hupd_same; reflexivity|].
      apply (dll_frame h); [|exact B']. intros q Hq.
      rewrite hupd_other by (intros X; inversion X; subst q; inversion C'; contradiction).
      rewrite !hupd_other by discriminate. reflexivity.
    + split; [rewrite hupd_other by discriminate; rewrite hupd_same; reflexivity|].
      split; [exact I|constructor].
    + intros x N1 N2 N3. rewrite hupd_other by (apply N3; left; reflexivity).
      rewrite !hupd_other by assumption. reflexivity.
Qed.

(** * All lists of one kind *)

Record hrep (h : heap) (L : nat -> option (list nat)) (loose : nat -> Prop) : Prop := HRep {
  hr_list : forall l xs, L l = Some xs -> lrep h l xs;
  hr_none : forall l, L l = None -> h (HL l) = None;
  hr_disj : forall l l' xs xs' n, L l = Some xs -> L l' = Some xs' -> In n xs -> In n xs' -> l = l';
  hr_loose : forall n, loose n -> h (HN n) = Some (Cell Null Null);
  hr_apart : forall n l xs, loose n -> L l = Some xs -> ~ In n xs;
  hr_only : forall n, h (HN n) <> None -> loose n \/ exists l xs, L l = Some xs /\ In n xs }.

Lemma hrep_ext h L L' p p' :
  (forall l, L l = L' l) -> (forall n, p n <-> p' n) -> hrep h L p -> hrep h L' p'.
Proof.
  intros EL EP [a b c d e f]. constructor.
  - intros l xs. rewrite <- EL. apply a.
  - intros l. rewrite <- EL. apply b.
  - intros l l' xs xs' n. rewrite <- !EL. apply c.
  - intros n H. apply d, EP, H.
  - intros n l xs H. rewrite <- EL. apply e, EP, H.
  - intros n H. destruct (f n H) as [X|(l & xs & X & Y)]; [left; apply EP, X|].
    right. exists l, xs. rewrite <- EL. auto.
Qed.

Lemma put_same {A} (f : nat -> option A) k v : put f k v k = v.
Proof. unfold put. rewrite Nat.eqb_refl. reflexivity. Qed.
Lemma put_other {A} (f : nat -> option A) k v x : x <> k -> put f k v x = f x.
Proof. intros N. unfold put. destruct (Nat.eqb_spec x k); [congruence|reflexivity]. Qed.

Definition dead (L : nat -> option (list nat)) (loose : nat -> Prop) (n : nat) : Prop :=
  ~ loose n /\ forall l xs, L l = Some xs -> ~ In n xs.
Lemma hrep_dead h L p n : hrep h L p -> dead L p n -> h (HN n) = None.
Proof.
  intros R [A B]. destruct (h (HN n)) eqn:E; [|reflexivity].
  destruct (hr_only h L p R n) as [X|(l & xs & X & Y)]; [congruence|contradiction|].
  exfalso. exact (B l xs X Y).
Qed.

Lemma dll_in h : forall xs p n, dll h p xs -> In n xs -> h (HN n) <> None.
Proof.
  induction xs as [|m r IH]; intros p n D []; destruct D as [E D].
  - subst. congruence.
  - exact (IH _ n D H).
Qed.
Lemma hrep_alive h L p l xs n : hrep h L p -> L l = Some xs -> In n xs -> h (HN n) <> None.
Proof. intros R E Hn. destruct (hr_list _ _ _ R _ _ E) as (_ & D & _). exact (dll_in h xs _ n D Hn). Qed.

Lemma hrep_new_list h L p l : hrep h L p -> L l = None ->
  exists h', hdr_new h (HL l) = Ok h' /\ hrep h' (put L l (Some [])) p.
Proof.
  intros R EL. unfold hdr_new. rewrite (hr_none _ _ _ R l EL). eexists. split; [reflexivity|].
  constructor.
  - intros l' xs. unfold put. destruct (Nat.eqb_spec l' l) as [->|N]; intros E.
    + injection E as <-. split; [hs; reflexivity|]. split; [exact I|constructor].
    + apply (lrep_frame h); [hs; reflexivity|intros; hs; reflexivity|exact (hr_list _ _ _ R _ _ E)].
  - intros l'. unfold put. destruct (Nat.eqb_spec l' l) as [->|N]; intros E; [discriminate|].
    hs. exact (hr_none _ _ _ R _ E).
  - intros l1 l2 xs ys n. unfold put.
    destruct (Nat.eqb_spec l1 l) as [->|N]; [intros E _ Hx; injection E as <-; destruct Hx|].
    destruct (Nat.eqb_spec l2 l) as [->|N']; [intros _ E _ Hx; injection E as <-; destruct Hx|].
    apply (hr_disj _ _ _ R).
  - intros n Hn. hs. exact (hr_loose _ _ _ R n Hn).
  - intros n l' xs Hn. unfold put. destruct (Nat.eqb_spec l' l) as [->|N]; intros E.
    + injection E as <-. intros [].
    + exact (hr_apart _ _ _ R n _ _ Hn E).
  - intros n. hs. intros Hn. destruct (hr_only _ _ _ R n Hn) as [X|(l' & xs & X & Y)]; [left; exact X|].
    right. exists l', xs. split; [|exact Y]. rewrite put_other; [exact X|congruence].
Qed.

Lemma hrep_new_node h L p n : hrep h L p -> dead L p n ->
  exists h', hdr_new h (HN n) = Ok h' /\ hrep h' L (fun x => x = n \/ p x).
Proof.
  intros R Hd. unfold hdr_new. rewrite (hrep_dead _ _ _ _ R Hd). eexists. split; [reflexivity|].
  destruct Hd as [D1 D2]. constructor.
  - intros l xs E. apply (lrep_frame h); [hs; reflexivity| |exact (hr_list _ _ _ R _ _ E)].
    intros m Hm. assert (m <> n) by (intros ->; exact (D2 l xs E Hm)). hs. reflexivity.
  - intros l E. hs. exact (hr_none _ _ _ R _ E).
  - exact (hr_disj _ _ _ R).
  - intros m Hm. destruct (Nat.eq_dec m n) as [->|N]; [hs; reflexivity|].
    hs. destruct Hm as [->|Hm]; [congruence|exact (hr_loose _ _ _ R m Hm)].
  - intros m l xs [->|Hm] E; [exact (D2 l xs E)|exact (hr_apart _ _ _ R m _ _ Hm E)].
  - intros m Hm. destruct (Nat.eq_dec m n) as [->|N]; [left; left; reflexivity|].
    rewrite hupd_other in Hm by congruence.
    destruct (hr_only _ _ _ R m Hm) as [X|X]; [left; right; exact X|right; exact X].
Qed.

Lemma hrep_link h L p l xs n : hrep h L p -> p n -> L l = Some xs ->
  exists h', l_link_front h l n = Ok h' /\
             hrep h' (put L l (Some (n :: xs))) (fun x => p x /\ x <> n).
Proof.
  intros R Hn EL.
  assert (Nx : ~ In n xs) by exact (hr_apart _ _ _ R n _ _ Hn EL).
  destruct (link_front_one h l xs n (hr_list _ _ _ R _ _ EL) (hr_loose _ _ _ R n Hn) Nx)
    as (h' & E & R' & F).
  exists h'. split; [exact E|].
  assert (FL : forall l', l' <> l -> h' (HL l') = h (HL l')).
  { intros l' N. apply F; [congruence|discriminate|discriminate]. }
  assert (FN : forall m, m <> n -> ~ In m xs -> h' (HN m) = h (HN m)).
  { intros m N N'. apply F; [discriminate|congruence|]. intros q Hq X. inversion X; subst q. contradiction. }
  constructor.
  - intros l' ys. unfold put. destruct (Nat.eqb_spec l' l) as [->|N]; intros E'.
    + injection E' as <-. exact R'.
    + apply (lrep_frame h); [exact (FL l' N)| |exact (hr_list _ _ _ R _ _ E')].
      intros m Hm. apply FN.
      * intros ->. exact (hr_apart _ _ _ R n _ _ Hn E' Hm).
      * intros Hx. apply N. exact (hr_disj _ _ _ R _ _ _ _ m E' EL Hm Hx).
  - intros l'. unfold put. destruct (Nat.eqb_spec l' l) as [->|N]; intros E'; [discriminate|].
    rewrite FL by exact N. exact (hr_none _ _ _ R _ E').
  - intros l1 l2 ys zs m. unfold put.
    destruct (Nat.eqb_spec l1 l) as [->|N1]; destruct (Nat.eqb_spec l2 l) as [->|N2]; intros E1 E2 H1 H2.
    + reflexivity.
    + injection E1 as <-. destruct H1 as [->|H1].
      * exfalso. exact (hr_apart _ _ _ R m _ _ Hn E2 H2).
      * exact (hr_disj _ _ _ R _ _ _ _ m EL E2 H1 H2).
    + injection E2 as <-. destruct H2 as [->|H2].
      * exfalso. exact (hr_apart _ _ _ R m _ _ Hn E1 H1).
      * exact (hr_disj _ _ _ R _ _ _ _ m E1 EL H1 H2).
    + exact (hr_disj _ _ _ R _ _ _ _ m E1 E2 H1 H2).
  - intros m [Hm N]. rewrite FN; [exact (hr_loose _ _ _ R m Hm)|exact N|exact (hr_apart _ _ _ R m _ _ Hm EL)].
  - intros m l' ys [Hm N]. unfold put. destruct (Nat.eqb_spec l' l) as [->|Nl]; intros E'.
    + injection E' as <-. intros [->|X]; [congruence|exact (hr_apart _ _ _ R m _ _ Hm EL X)].
    + exact (hr_apart _ _ _ R m _ _ Hm E').
  - intros m Hm. destruct (Nat.eq_dec m n) as [->|N].
    { right. exists l, (n :: xs). rewrite put_same. split; [reflexivity|left; reflexivity]. }
    destruct (in_dec Nat.eq_dec m xs) as [Hx|Hx].
    { right. exists l, (n :: xs). rewrite put_same. split; [reflexivity|right; exact Hx]. }
    rewrite FN in Hm by assumption.
    destruct (hr_only _ _ _ R m Hm) as [X|(l' & ys & X & Y)]; [left; auto|].
    right. exists l', ys. split; [|exact Y]. rewrite put_other; [exact X|].
    intros ->. rewrite EL in X. injection X as <-. contradiction.
Qed.

Lemma filter_all {A} (f : A -> bool) xs : (forall x, In x xs -> f x = true) -> filter f xs = xs.
Proof.
  induction xs as [|x r IH]; intros H; cbn; [reflexivity|].
  rewrite (H x) by (left; reflexivity). f_equal. apply IH. intros y Hy. apply H. right. exact Hy.
Qed.
Lemma remove_node_absent n xs : ~ In n xs -> remove_node n xs = xs.
Proof.
  intros H. apply filter_all. intros x Hx. apply Bool.negb_true_iff, Nat.eqb_neq. intros ->. contradiction.
Qed.
Lemma remove_node_split n a b : NoDup (a ++ n :: b) -> remove_node n (a ++ n :: b) = a ++ b.
Proof.
  intros H. assert (N := NoDup_remove_2 _ _ _ H). unfold remove_node. rewrite filter_app. cbn.
  rewrite Nat.eqb_refl. cbn. fold (remove_node n a). fold (remove_node n b).
  rewrite !remove_node_absent; [reflexivity| |]; intros X; apply N, in_or_app; auto.
Qed.
Lemma in_remove_node n m xs : In m (remove_node n xs) <-> In m xs /\ m <> n.
Proof.
  unfold remove_node. rewrite filter_In, Bool.negb_true_iff, Nat.eqb_neq. reflexivity.
Qed.

Lemma hrep_delete_linked h L p l xs n : hrep h L p -> L l = Some xs -> In n xs ->
  exists h', hdr_destroy h (HN n) = Ok h' /\ hrep h' (put L l (Some (remove_node n xs))) p.
Proof.
  intros R EL Hn. destruct (hr_list _ _ _ R _ _ EL) as (A & B & C).
  destruct (in_split n xs Hn) as (a & b & ->).
  destruct (destroy_seg h n b a (HL l) (ToHdr (HL l)) Null eq_refl A B C) as (h' & E & E1 & E2 & E3 & F).
  { intros m _. discriminate. }
  exists h'. split; [exact E|]. rewrite (remove_node_split n a b C).
  assert (Nn := NoDup_remove_2 _ _ _ C). assert (C' := NoDup_remove_1 _ _ _ C).
  assert (FL : forall l', l' <> l -> h' (HL l') = h (HL l')).
  { intros l' N. apply F; [congruence|discriminate]. }
  assert (FN : forall m, ~ In m (a ++ n :: b) -> h' (HN m) = h (HN m)).
  { intros m N'. apply F; [discriminate|]. intros q Hq X. inversion X; subst q. contradiction. }
  assert (SUB : forall m, In m (a ++ b) -> In m (a ++ n :: b)).
  { intros m Hm. apply in_app_or in Hm. apply in_or_app. destruct Hm; [left|right; right]; assumption. }
  constructor.
  - intros l' ys. unfold put. destruct (Nat.eqb_spec l' l) as [->|N]; intros E'.
    + injection E' as <-. split; [exact E1|]. split; [exact E2|exact C'].
    + apply (lrep_frame h); [exact (FL l' N)| |exact (hr_list _ _ _ R _ _ E')].
      intros m Hm. apply FN. intros Hx. apply N. exact (hr_disj _ _ _ R _ _ _ _ m E' EL Hm Hx).
  - intros l'. unfold put. destruct (Nat.eqb_spec l' l) as [->|N]; intros E'; [discriminate|].
    rewrite FL by exact N. exact (hr_none _ _ _ R _ E').
  - intros l1 l2 ys zs m. unfold put.
    destruct (Nat.eqb_spec l1 l) as [->|N1]; destruct (Nat.eqb_spec l2 l) as [->|N2]; intros E1' E2' H1 H2.
    + reflexivity.
    + injection E1' as <-. exact (hr_disj _ _ _ R _ _ _ _ m EL E2' (SUB m H1) H2).
    + injection E2' as <-. exact (hr_disj _ _ _ R _ _ _ _ m E1' EL H1 (SUB m H2)).
    + exact (hr_disj _ _ _ R _ _ _ _ m E1' E2' H1 H2).
  - intros m Hm. rewrite FN; [exact (hr_loose _ _ _ R m Hm)|exact (hr_apart _ _ _ R m _ _ Hm EL)].
  - intros m l' ys Hm. unfold put. destruct (Nat.eqb_spec l' l) as [->|Nl]; intros E'.
    + injection E' as <-. intros X. exact (hr_apart _ _ _ R m _ _ Hm EL (SUB m X)).
    + exact (hr_apart _ _ _ R m _ _ Hm E').
  - intros m Hm. destruct (in_dec Nat.eq_dec m (a ++ n :: b)) as [Hx|Hx].
    { right. exists l, (a ++ b). rewrite put_same. split; [reflexivity|].
      apply in_app_or in Hx. apply in_or_app. destruct Hx as [Hx|[->|Hx]]; [auto|congruence|auto]. }
    rewrite FN in Hm by assumption.
    destruct (hr_only _ _ _ R m Hm) as [X|(l' & ys & X & Y)]; [left; auto|].
    right. exists l', ys. split; [|exact Y]. rewrite put_other; [exact X|].
    intros ->. rewrite EL in X. injection X as <-. contradiction.
Qed.

Lemma hrep_delete_loose h L p n : hrep h L p -> p n ->
  exists h', hdr_destroy h (HN n) = Ok h' /\ hrep h' L (fun x => p x /\ x <> n).
Proof.
  intros R Hn. rewrite (destroy_loose h n (hr_loose _ _ _ R n Hn)). eexists. split; [reflexivity|].
  constructor.
  - intros l xs E. apply (lrep_frame h); [hs; reflexivity| |exact (hr_list _ _ _ R _ _ E)].
    intros m Hm. assert (m <> n) by (intros ->; exact (hr_apart _ _ _ R n _ _ Hn E Hm)). hs. reflexivity.
  - intros l E. hs. exact (hr_none _ _ _ R _ E).
  - exact (hr_disj _ _ _ R).
  - intros m [Hm N]. hs. exact (hr_loose _ _ _ R m Hm).
  - intros m l xs [Hm _] E. exact (hr_apart _ _ _ R m _ _ Hm E).
  - intros m Hm. destruct (Nat.eq_dec m n) as [->|N]; [rewrite hupd_same in Hm; congruence|].
    rewrite hupd_other in Hm by congruence.
    destruct (hr_only _ _ _ R m Hm) as [X|X]; [left; auto|right; exact X].
Qed.

Lemma hrep_destroy_list h L p l : hrep h L p -> L l = Some [] ->
  exists h', hdr_destroy h (HL l) = Ok h' /\ hrep h' (put L l None) p.
Proof.
  intros R EL. destruct (hr_list _ _ _ R _ _ EL) as (A & _ & _).
  rewrite (destroy_empty h l A). eexists. split; [reflexivity|].
  constructor.
  - intros l' xs. unfold put. destruct (Nat.eqb_spec l' l) as [->|N]; intros E; [discriminate|].
    apply (lrep_frame h); [hs; reflexivity|intros; hs; reflexivity|exact (hr_list _ _ _ R _ _ E)].
  - intros l'. unfold put. destruct (Nat.eqb_spec l' l) as [->|N]; intros E; [hs; reflexivity|].
    hs. exact (hr_none _ _ _ R _ E).
  - intros l1 l2 xs ys n. unfold put.
    destruct (Nat.eqb_spec l1 l) as [->|N]; [discriminate|].
    destruct (Nat.eqb_spec l2 l) as [->|N']; [discriminate|]. apply (hr_disj _ _ _ R).
  - intros n Hn. hs. exact (hr_loose _ _ _ R n Hn).
  - intros n l' xs Hn. unfold put. destruct (Nat.eqb_spec l' l) as [->|N]; intros E; [discriminate|].
    exact (hr_apart _ _ _ R n _ _ Hn E).
  - intros n. hs. intros Hn. destruct (hr_only _ _ _ R n Hn) as [X|(l' & xs & X & Y)]; [left; exact X|].
    right. exists l', xs. split; [|exact Y]. rewrite put_other; [exact X|].
    intros ->. rewrite EL in X. injection X as <-. destruct Y.
Qed.

Lemma hrep_move_assign h L p l l' xs : hrep h L p -> l <> l' -> L l = Some [] -> L l' = Some xs ->
  exists h', hdr_move_assign h (HL l) (HL l') = Ok h' /\
             hrep h' (put (put L l' (Some [])) l (Some xs)) p.
Proof.
  intros R Nl E1 E2.
  destruct (move_assign_one h l l' xs Nl (hr_list _ _ _ R _ _ E1) (hr_list _ _ _ R _ _ E2))
    as (h' & E & R1 & R2 & F).
  exists h'. split; [exact E|].
  assert (FL : forall q, q <> l -> q <> l' -> h' (HL q) = h (HL q)).
  { intros q N N'. apply F; [congruence|congruence|discriminate]. }
  assert (FN : forall m, ~ In m xs -> h' (HN m) = h (HN m)).
  { intros m N'. apply F; [discriminate|discriminate|]. intros q Hq X. inversion X; subst q. contradiction. }
  constructor.
  - intros q ys. unfold put. destruct (Nat.eqb_spec q l) as [->|N].
    { intros E'. injection E' as <-. exact R1. }
    destruct (Nat.eqb_spec q l') as [->|N'].
    { intros E'. injection E' as <-. exact R2. }
    intros E'. apply (lrep_frame h); [exact (FL q N N')| |exact (hr_list _ _ _ R _ _ E')].
    intros m Hm. apply FN. intros Hx. apply N'. exact (hr_disj _ _ _ R _ _ _ _ m E' E2 Hm Hx).
  - intros q. unfold put. destruct (Nat.eqb_spec q l) as [->|N]; [discriminate|].
    destruct (Nat.eqb_spec q l') as [->|N']; [discriminate|].
    intros E'. rewrite FL by assumption. exact (hr_none _ _ _ R _ E').
  - assert (X : forall q ys m, put (put L l' (Some [])) l (Some xs) q = Some ys -> In m ys ->
                exists q', L q' = Some ys /\ ((q = l /\ q' = l') \/ (q <> l /\ q <> l' /\ q' = q))).
    { intros q ys m. unfold put. destruct (Nat.eqb_spec q l) as [->|N].
      { intros E' _. injection E' as <-. exists l'. auto. }
      destruct (Nat.eqb_spec q l') as [->|N']; intros E' Hm.
      { injection E' as <-. destruct Hm. }
      exists q. auto. }
    intros q1 q2 ys zs m A1 A2 H1 H2.
    destruct (X q1 ys m A1 H1) as (r1 & B1 & C1). destruct (X q2 zs m A2 H2) as (r2 & B2 & C2).
    assert (r1 = r2) by exact (hr_disj _ _ _ R _ _ _ _ m B1 B2 H1 H2).
    destruct C1 as [[-> ->]|(U1 & U2 & ->)]; destruct C2 as [[-> ->]|(V1 & V2 & ->)]; congruence.
  - intros m Hm. rewrite FN; [exact (hr_loose _ _ _ R m Hm)|exact (hr_apart _ _ _ R m _ _ Hm E2)].
  - intros m q ys Hm. unfold put. destruct (Nat.eqb_spec q l) as [->|N].
    { intros E'. injection E' as <-. exact (hr_apart _ _ _ R m _ _ Hm E2). }
    destruct (Nat.eqb_spec q l') as [->|N']; intros E'.
    { injection E' as <-. intros []. }
    exact (hr_apart _ _ _ R m _ _ Hm E').
  - intros m Hm. destruct (in_dec Nat.eq_dec m xs) as [Hx|Hx].
    { right. exists l, xs. rewrite put_same. auto. }
    rewrite FN in Hm by exact Hx.
    destruct (hr_only _ _ _ R m Hm) as [X|(q & ys & X & Y)]; [left; exact X|].
    right. exists q, ys. split; [|exact Y].
    rewrite put_other; [rewrite put_other; [exact X|]|].
    + intros ->. rewrite E2 in X. injection X as <-. contradiction.
    + intros ->. rewrite E1 in X. injection X as <-. destruct Y.
Qed.

Lemma hrep_move_new h L p l l' xs : hrep h L p -> L l = None -> L l' = Some xs ->
  exists h', hdr_move_new h (HL l) (HL l') = Ok h' /\
             hrep h' (put (put L l' (Some [])) l (Some xs)) p.
Proof.
  intros R E1 E2. destruct (hrep_new_list h L p l R E1) as (h1 & E & R1).
  unfold hdr_move_new. rewrite E. cbn [bind].
  assert (Nl : l <> l') by congruence.
  destruct (hrep_move_assign h1 _ p l l' xs R1 Nl) as (h2 & E' & R2).
  { apply put_same. }
  { rewrite put_other by congruence. exact E2. }
  exists h2. split; [exact E'|]. revert R2. apply hrep_ext; [|reflexivity].
  intros q. unfold put. destruct (Nat.eqb_spec q l); [reflexivity|]. destruct (q =? l'); reflexivity.
Qed.

(** * What is observed *)

Lemma iterate_dll h : forall xs fuel p, dll h p xs -> length xs <= fuel ->
  iterate fuel h (get_node (head_ptr xs)) = Ok xs.
Proof.
  induction xs as [|n r IH]; intros fuel p D Hf; [destruct fuel; reflexivity|].
  cbn [length] in Hf. destruct fuel as [|f]; [lia|]. destruct D as [E D].
  cbn [head_ptr get_node iterate it_next]. rewrite E. cbn [of_opt bind c_next].
  rewrite (IH f _ D) by lia. reflexivity.
Qed.
Lemma dll_step h : forall a p x y b, dll h p (a ++ x :: y :: b) ->
  it_next h (Some x) = Ok (Some y) /\ it_prev h (Some y) = Ok (Some x).
Proof.
  induction a as [|m a IH]; intros p x y b D.
  - destruct D as [E1 [E2 _]]. cbn. rewrite E1, E2. split; reflexivity.
  - destruct D as [_ D]. exact (IH _ x y b D).
Qed.
Lemma dll_last h : forall a p x, dll h p (a ++ [x]) -> it_next h (Some x) = Ok None.
Proof.
  induction a as [|m a IH]; intros p x D.
  - destruct D as [E1 _]. cbn. rewrite E1. reflexivity.
  - destruct D as [_ D]. exact (IH _ x D).
Qed.
Lemma lrep_elements fuel h l xs : lrep h l xs -> length xs <= fuel -> l_elements fuel h l = Ok xs.
Proof.
  intros (A & B & C) Hf. unfold l_elements, l_begin. rewrite A. exact (iterate_dll h xs fuel _ B Hf).
Qed.
Lemma lrep_shows fuel h l xs : lrep h l xs -> length xs <= fuel -> shows fuel h l xs.
Proof.
  intros R Hf. split; [exact (lrep_elements fuel h l xs R Hf)|]. destruct R as (A & B & C).
  split; [unfold l_empty; rewrite A; destruct xs; reflexivity|].
  split; [|split].
  - intros x r ->. destruct B as [E _]. unfold l_front, l_begin. rewrite A. cbn. rewrite E. split; reflexivity.
  - intros a x y b ->. exact (dll_step h a _ x y b B).
  - intros a x ->. exact (dll_last h a _ x B).
Qed.

(** * The deleting loops *)

Section Deleting.
Context {S : Type} (hp : S -> heap) (del : nat -> S -> res S).

Lemma delete_all_spec (P : list nat -> S -> Prop) k :
  (forall xs s, P xs s -> exists q, hp s k = Some (Cell (head_ptr xs) q)) ->
  (forall n xs s, P (n :: xs) s -> exists s', del n s = Ok s' /\ P xs s') ->
  forall xs fuel s, P xs s -> length xs <= fuel ->
  exists s', delete_all hp del fuel k s = Ok s' /\ P [] s'.
Proof.
  intros HK HD. induction xs as [|n r IH]; intros fuel s HP Hf.
  - exists s. split; [|exact HP]. destruct (HK _ _ HP) as (q & E).
    destruct fuel; cbn [delete_all]; rewrite E; reflexivity.
  - cbn [length] in Hf. destruct fuel as [|f]; [lia|].
    destruct (HK _ _ HP) as (q & E). destruct (HD _ _ _ HP) as (s1 & E1 & HP1).
    destruct (IH f s1 HP1) as (s2 & E2 & HP2); [lia|]. exists s2. split; [|exact HP2].
    cbn [delete_all]. rewrite E. cbn [of_opt bind c_next head_ptr get_node]. rewrite E1. exact E2.
Qed.

Lemma clear_from_spec (P : list nat -> list nat -> S -> Prop) (f : nat -> bool) :
  (forall a n r s, P a (n :: r) s -> it_next (hp s) (Some n) = Ok (get_node (head_ptr r))) ->
  (forall a n r s, P a (n :: r) s -> f n = true -> exists s', del n s = Ok s' /\ P a r s') ->
  (forall a n r s, P a (n :: r) s -> f n = false -> P (a ++ [n]) r s) ->
  forall r fuel a s, P a r s -> length r <= fuel ->
  exists s', clear_from hp del fuel f (get_node (head_ptr r)) s = Ok s' /\
             P (a ++ filter (fun x => negb (f x)) r) [] s'.
Proof.
  intros HN HD HK. induction r as [|n r IH]; intros fuel a s HP Hf.
  - exists s. cbn [filter]. rewrite app_nil_r. split; [destruct fuel; reflexivity|exact HP].
  - cbn [length] in Hf. destruct fuel as [|fu]; [lia|]. cbn [head_ptr get_node clear_from filter].
    rewrite (HN _ _ _ _ HP). cbn [bind].
    destruct (f n) eqn:Ef; cbn [negb].
    + destruct (HD _ _ _ _ HP Ef) as (s1 & E1 & HP1).
      destruct (IH fu a s1 HP1) as (s2 & E2 & HP2); [lia|]. exists s2. split; [|exact HP2].
      rewrite E1. exact E2.
    + destruct (IH fu _ s (HK _ _ _ _ HP Ef)) as (s2 & E2 & HP2); [lia|]. exists s2.
      split; [exact E2|]. rewrite <- app_assoc in HP2. exact HP2.
Qed.
End Deleting.
Arguments delete_all_spec {S}. Arguments clear_from_spec {S}.

(** * Programs over lists *)

Definition wrep (h : heap) (w : world) : Prop := hrep h (w_lists w) (fun n => In n (w_loose w)).

Lemma wdead w n : ~ node_exists w n -> dead (w_lists w) (fun x => In x (w_loose w)) n.
Proof.
  intros H. split; [intros X; apply H; left; exact X|].
  intros l xs E X. apply H. right. exists l. unfold in_list. rewrite E. exact X.
Qed.

Lemma hrep_emplace h L p l xs n : hrep h L p -> dead L p n -> L l = Some xs ->
  exists h', l_emplace_front h l n = Ok h' /\ hrep h' (put L l (Some (n :: xs))) p.
Proof.
  intros R Hd EL. destruct (hrep_new_node h L p n R Hd) as (h1 & E1 & R1).
  destruct (hrep_link h1 L _ l xs n R1 (or_introl eq_refl) EL) as (h2 & E2 & R2).
  exists h2. unfold l_emplace_front. rewrite E1. split; [exact E2|].
  revert R2. apply hrep_ext; [reflexivity|]. intros x. destruct Hd as [Hd _]. split.
  - intros [[->|X] N]; [congruence|exact X].
  - intros X. split; [auto|]. intros ->. contradiction.
Qed.

Lemma put_put {A} (f : nat -> option A) k v v' x : put (put f k v) k v' x = put f k v' x.
Proof. unfold put. destruct (x =? k); reflexivity. Qed.

Lemma plain_clear fuel h L p l xs f : hrep h L p -> L l = Some xs -> length xs <= fuel ->
  exists h', l_clear_if fuel h l f = Ok h' /\
             hrep h' (put L l (Some (filter (fun x => negb (f x)) xs))) p.
Proof.
  intros R EL Hf. destruct (hr_list _ _ _ R _ _ EL) as (A & _ & _).
  unfold l_clear_if, clear_if, l_begin. rewrite A. cbn [of_opt bind c_next].
  destruct (clear_from_spec (fun x => x) plain_del
              (fun a r s => hrep s (put L l (Some (a ++ r))) p) f) with (r := xs) (fuel := fuel) (a := @nil nat) (s := h)
    as (h' & E & R').
  - intros a n r s R1. destruct (hr_list _ _ _ R1 l _ (put_same L l _)) as (_ & D & _).
    destruct r as [|m r]; [exact (dll_last s a _ n D)|]. exact (proj1 (dll_step s a _ n m r D)).
  - intros a n r s R1 _.
    destruct (hrep_delete_linked s _ p l (a ++ n :: r) n R1 (put_same L l _)) as (s1 & E & R2).
    { apply in_or_app. right. left. reflexivity. }
    exists s1. split; [exact E|]. destruct (hr_list _ _ _ R1 l _ (put_same L l _)) as (_ & _ & ND).
    rewrite (remove_node_split n a r ND) in R2. revert R2. apply hrep_ext; [|reflexivity].
    intros x. apply put_put.
  - intros a n r s R1 _. rewrite <- app_assoc. exact R1.
  - cbn [app]. revert R. apply hrep_ext; [|reflexivity].
    intros x. unfold put. destruct (Nat.eqb_spec x l) as [->|]; [exact EL|reflexivity].
  - exact Hf.
  - exists h'. split; [exact E|]. rewrite app_nil_r in R'. exact R'.
Qed.

Lemma plain_delete_all fuel h L p l xs : hrep h L p -> L l = Some xs -> length xs <= fuel ->
  exists h', delete_all (fun x => x) plain_del fuel (HL l) h = Ok h' /\ hrep h' (put L l (Some [])) p.
Proof.
  intros R EL Hf.
  apply (delete_all_spec (fun x => x) plain_del (fun xs s => hrep s (put L l (Some xs)) p) (HL l)) with (xs := xs).
  - intros ys s R1. destruct (hr_list _ _ _ R1 l _ (put_same L l _)) as (A & _ & _).
    eexists. exact A.
  - intros n ys s R1.
    destruct (hrep_delete_linked s _ p l (n :: ys) n R1 (put_same L l _)) as (s1 & E & R2).
    { left. reflexivity. }
    exists s1. split; [exact E|]. destruct (hr_list _ _ _ R1 l _ (put_same L l _)) as (_ & _ & ND).
    pose proof (remove_node_split n [] ys ND) as RN. cbn [app] in RN. rewrite RN in R2. revert R2. apply hrep_ext; [|reflexivity].
    intros x. apply put_put.
  - revert R. apply hrep_ext; [|reflexivity].
    intros x. unfold put. destruct (Nat.eqb_spec x l) as [->|]; [exact EL|reflexivity].
  - exact Hf.
Qed.

Lemma plain_destroy fuel h L p l xs : hrep h L p -> L l = Some xs -> length xs <= fuel ->
  exists h', l_destroy fuel h l = Ok h' /\ hrep h' (put L l None) p.
Proof.
  intros R EL Hf. destruct (plain_delete_all fuel h L p l xs R EL Hf) as (h1 & E1 & R1).
  destruct (hrep_destroy_list h1 _ p l R1 (put_same L l _)) as (h2 & E2 & R2).
  exists h2. unfold l_destroy. rewrite E1. split; [exact E2|].
  revert R2. apply hrep_ext; [|reflexivity]. intros x. apply put_put.
Qed.

Definition bounded (k : nat) (w : world) : Prop :=
  forall l xs, w_lists w l = Some xs -> length xs <= k.

Lemma filter_len {A} (f : A -> bool) xs : length (filter f xs) <= length xs.
Proof. induction xs as [|x r IH]; cbn; [lia|]. destruct (f x); cbn; lia. Qed.

Lemma does_bounded k w op w' : does w op w' -> bounded k w -> bounded (S k) w'.
Proof.
  intros HD HB.
  assert (HB' : bounded (S k) w) by (intros l xs E; specialize (HB l xs E); lia).
  destruct HD; intros l0 ys; cbn [w_lists]; unfold put;
    repeat (match goal with |- context [?a =? ?b] => destruct (Nat.eqb_spec a b) as [->|] end);
    intros E; try (injection E as <-); try discriminate; try (apply HB' in E; exact E); cbn [length]; try lia.
  - apply HB in H. lia.
  - apply HB in H. lia.
  - destruct (w_lists w l0) as [xs|] eqn:E0; [|discriminate]. injection E as <-.
    apply HB in E0. pose proof (filter_len (fun x => negb (x =? n)) xs) as FL. unfold remove_node. lia.
  - apply HB in H. pose proof (filter_len (fun x => negb (f x)) xs) as FL. lia.
  - apply HB in H0. lia.
  - apply HB in H1. lia.
Qed.

Lemma run_op_ok fuel w op w' h : does w op w' -> wrep h w -> bounded fuel w ->
  exists h', run_op fuel h op = Ok h' /\ wrep h' w'.
Proof.
  intros HD R HB. destruct HD; cbn [run_op]; unfold wrep in *; cbn [w_lists w_loose].
  - exact (hrep_new_list h _ _ l R H).
  - destruct (hrep_new_node h _ _ n R (wdead w n H)) as (h' & E & R'). exists h'. split; [exact E|].
    revert R'. apply hrep_ext; [reflexivity|]. intros x. cbn [In]. split; intros [X|X]; auto.
  - exact (hrep_emplace h _ _ l xs n R (wdead w n H0) H).
  - destruct (hrep_link h _ _ l xs n R H0 H) as (h' & E & R'). exists h'. split; [exact E|].
    revert R'. apply hrep_ext; [reflexivity|]. intros x. rewrite in_remove_node. reflexivity.
  - destruct H as [Hl|(l & Hl)].
    + destruct (hrep_delete_loose h _ _ n R Hl) as (h' & E & R'). exists h'. split; [exact E|].
      revert R'. apply hrep_ext; [|intros x; rewrite in_remove_node; reflexivity].
      intros l. destruct (w_lists w l) as [xs|] eqn:EL; [|reflexivity]. cbn.
      rewrite remove_node_absent; [reflexivity|]. exact (hr_apart _ _ _ R n l xs Hl EL).
    + unfold in_list in Hl. destruct (w_lists w l) as [xs|] eqn:EL; [|destruct Hl].
      destruct (hrep_delete_linked h _ _ l xs n R EL Hl) as (h' & E & R'). exists h'. split; [exact E|].
      revert R'. apply hrep_ext.
      * intros l'. unfold put. destruct (Nat.eqb_spec l' l) as [->|N]; [rewrite EL; reflexivity|].
        destruct (w_lists w l') as [ys|] eqn:EL'; [|reflexivity]. cbn.
        rewrite remove_node_absent; [reflexivity|]. intros X. apply N.
        exact (hr_disj _ _ _ R _ _ _ _ n EL' EL X Hl).
      * intros x. rewrite in_remove_node. split; [|tauto]. intros X. split; [exact X|].
        intros ->. exact (hr_apart _ _ _ R n l xs X EL Hl).
  - exact (plain_clear fuel h _ _ l xs f R H (HB _ _ H)).
  - exact (plain_destroy fuel h _ _ l xs R H (HB _ _ H)).
  - exact (hrep_move_new h _ _ this other xs R H H0).
  - exact (hrep_move_assign h _ _ this other xs R H H0 H1).
  - exists h. split; [|exact R]. unfold l_move_assign, hdr_move_assign.
    assert (X : hid_eqb (HL l) (HL l) = true) by (apply hid_eqb_eq; reflexivity). rewrite X. reflexivity.
Qed.

Lemma wrep0 : wrep heap0 world0.
Proof.
  constructor; cbn; try discriminate; try reflexivity; try (intros; contradiction).
Qed.

Lemma bounded_mono k k' w : k <= k' -> bounded k w -> bounded k' w.
Proof. intros H B l xs E. specialize (B l xs E). lia. Qed.

Lemma run_ops_ok fuel : forall ops w w' h k, does_all w ops w' -> wrep h w -> bounded k w ->
  k + length ops <= fuel ->
  exists h', run_ops fuel h ops = Ok h' /\ wrep h' w' /\ bounded fuel w'.
Proof.
  induction ops as [|op ops IH]; intros w w' h k HD R HB Hf; inversion HD; subst.
  - exists h. split; [reflexivity|]. split; [exact R|]. cbn [length] in Hf. apply (bounded_mono k); [lia|exact HB].
  - cbn [length] in Hf.
    destruct (run_op_ok fuel w op w1 h H2 R) as (h1 & E1 & R1); [apply (bounded_mono k); [lia|exact HB]|].
    destruct (IH w1 w' h1 (S k) H4 R1 (does_bounded k _ _ _ H2 HB)) as (h2 & E2 & R2); [lia|].
    exists h2. cbn [run_ops]. rewrite E1. split; [exact E2|exact R2].
Qed.

(** Programs over lists behave as programs over sequences. *)
Lemma list_programs fuel ops w : does_all world0 ops w -> length ops <= fuel ->
  exists h, run_ops fuel heap0 ops = Ok h /\
    (forall l xs, w_lists w l = Some xs -> shows fuel h l xs) /\
    (forall l, h (HL l) <> None <-> w_lists w l <> None) /\
    (forall n, h (HN n) <> None <-> node_exists w n).
Proof.
  intros HD Hf.
  destruct (run_ops_ok fuel ops world0 w heap0 0 HD wrep0) as (h & E & R & B); [intros l xs X; discriminate|exact Hf|].
  exists h. split; [exact E|]. unfold wrep in R. split; [|split].
  - intros l xs EL. exact (lrep_shows fuel h l xs (hr_list _ _ _ R _ _ EL) (B _ _ EL)).
  - intros l. destruct (w_lists w l) as [xs|] eqn:EL.
    + destruct (hr_list _ _ _ R _ _ EL) as (A & _). rewrite A. split; discriminate.
    + rewrite (hr_none _ _ _ R l EL). tauto.
  - intros n. split.
    + intros H. destruct (hr_only _ _ _ R n H) as [X|(l & xs & X & Y)]; [left; exact X|].
      right. exists l. unfold in_list. rewrite X. exact Y.
    + intros [X|(l & X)].
      * rewrite (hr_loose _ _ _ R n X). discriminate.
      * unfold in_list in X. destruct (w_lists w l) as [xs|] eqn:EL; [|destruct X].
        exact (hrep_alive h _ _ l xs n R EL X).
Qed.

