(** What programs over lists and graphs in memory do: the statements for the properties. *)
From Coq Require Import String Lia.
From Verif Require Import Model.Common Model.TaskSet Model.Dag Model.Heap Spec.Lists Spec.Graph Spec.Tasks
     Proofs.Sets Proofs.HeapFacts Proofs.GraphMem Proofs.BuildProps.
Open Scope nat_scope.
Open Scope list_scope.

(** * Tagged pointers *)

Lemma even_double a : N.even a = true -> a = N.double (N.div2 a).
Proof. intros H. destruct a as [|[p|p|]]; try discriminate; reflexivity. Qed.
Lemma lor_one a : N.even a = true -> N.lor a 1 = (a + 1)%N.
Proof. intros H. destruct a as [|[p|p|]]; try discriminate; reflexivity. Qed.
Lemma land_one_even a : N.even a = true -> N.land a 1 = 0%N.
Proof. intros H. destruct a as [|[p|p|]]; try discriminate; reflexivity. Qed.
Lemma land_one_odd a : N.even a = true -> N.land (a + 1) 1 = 1%N.
Proof. intros H. destruct a as [|[p|p|]]; try discriminate; reflexivity. Qed.

Lemma ctl_node a : N.even a = true -> lp_ctlbit a = false.
Proof. intros H. unfold lp_ctlbit. rewrite land_one_even by exact H. reflexivity. Qed.
Lemma ctl_header a : N.even a = true -> lp_ctlbit (a + 1) = true.
Proof. intros H. unfold lp_ctlbit. rewrite land_one_odd by exact H. reflexivity. Qed.

Lemma testbit_high a i : (a < 2 ^ 64)%N -> (64 <= i)%N -> N.testbit a i = false.
Proof.
  intros Ha Hi. destruct (N.eq_dec a 0) as [->|N0]; [apply N.bits_0|].
  apply N.bits_above_log2. apply N.log2_lt_pow2 in Ha; lia.
Qed.
Lemma mask_bit i : N.testbit lp_mask i = ((i <? 64) && negb (i =? 0))%N.
Proof.
  unfold lp_mask. rewrite N.lxor_spec.
  assert (B1 : N.testbit 1 i = (i =? 0)%N).
  { destruct i as [|[p|p|]]; reflexivity. }
  rewrite B1. destruct (N.ltb_spec i 64) as [H|H].
  - rewrite N.ones_spec_low by lia. cbn. destruct (i =? 0)%N; reflexivity.
  - rewrite N.ones_spec_high by lia. destruct (N.eqb_spec i 0); [lia|reflexivity].
Qed.
Lemma even_bit0 a : N.even a = true -> N.testbit a 0 = false.
Proof. intros H. rewrite N.bit0_odd, <- N.negb_even, H. reflexivity. Qed.

Lemma pure_node a : N.even a = true -> (a < 2 ^ 64)%N -> lp_pure a = a.
Proof.
  intros He Ha. unfold lp_pure. apply N.bits_inj. intros i. rewrite N.land_spec, mask_bit.
  destruct (N.ltb_spec i 64) as [H|H].
  - destruct (N.eqb_spec i 0) as [->|N0]; cbn [negb andb].
    + rewrite even_bit0 by exact He. reflexivity.
    + apply Bool.andb_true_r.
  - rewrite testbit_high by assumption. reflexivity.
Qed.
Lemma pure_header a : N.even a = true -> (a < 2 ^ 64)%N -> lp_pure (a + 1) = a.
Proof.
  intros He Ha. rewrite <- lor_one by exact He. unfold lp_pure. apply N.bits_inj. intros i.
  rewrite N.land_spec, N.lor_spec, mask_bit.
  assert (B1 : N.testbit 1 i = (i =? 0)%N).
  { destruct i as [|[p|p|]]; reflexivity. }
  rewrite B1. clear B1. destruct (N.ltb_spec i 64) as [H|H].
  - destruct (N.eqb_spec i 0) as [->|N0]; cbn [negb andb].
    + rewrite even_bit0 by exact He. reflexivity.
    + rewrite Bool.orb_false_r, Bool.andb_true_r. reflexivity.
  - rewrite testbit_high by assumption. apply Bool.andb_false_r.
Qed.

Lemma header_word a : address a -> lp_header a = (a + 1)%N.
Proof.
  intros (H0 & He & Ha). unfold lp_header. destruct (N.eqb_spec a 0); [contradiction|]. exact (lor_one a He).
Qed.
Lemma type_node a : address a -> lp_type (lp_node a) = NODE_TYPE.
Proof.
  intros (H0 & He & Ha). unfold lp_type, lp_node. destruct (N.eqb_spec a 0); [contradiction|].
  rewrite ctl_node by exact He. reflexivity.
Qed.
Lemma type_header a : address a -> lp_type (lp_header a) = HEADER_TYPE.
Proof.
  intros H. rewrite (header_word a H). destruct H as (H0 & He & Ha). unfold lp_type.
  destruct (N.eqb_spec (a + 1) 0); [lia|]. rewrite ctl_header by exact He. reflexivity.
Qed.

Theorem tagged_pointers a : address a ->
  lp_type (lp_node a) = NODE_TYPE /\ lp_get_node (lp_node a) = a /\ lp_get_header (lp_node a) = 0%N /\
  lp_type (lp_header a) = HEADER_TYPE /\ lp_get_header (lp_header a) = a /\ lp_get_node (lp_header a) = 0%N /\
  (lp_node a < 2 ^ 64 /\ lp_header a < 2 ^ 64)%N.
Proof.
  intros H. pose proof H as (H0 & He & Ha). unfold lp_get_node, lp_get_header.
  rewrite (type_node a H), (type_header a H). unfold lp_node.
  rewrite (pure_node a He Ha). rewrite (header_word a H), (pure_header a He Ha).
  repeat split; try assumption.
  destruct (N.eq_dec (a + 1) (2 ^ 64)) as [E|E]; [|lia].
  exfalso. assert (X : N.even (a + 1) = true) by (rewrite E; reflexivity).
  rewrite N.even_add, He in X. discriminate.
Qed.
Theorem tagged_equality a b : address a -> address b ->
  (lp_node a = lp_node b <-> a = b) /\ (lp_header a = lp_header b <-> a = b) /\
  lp_node a <> lp_header b /\ lp_node a <> lp_null /\ lp_header a <> lp_null.
Proof.
  intros Ha Hb. rewrite (header_word a Ha), (header_word b Hb). unfold lp_node, lp_null.
  split; [reflexivity|]. split; [split; [lia|congruence]|]. split; [|destruct Ha as (? & _); split; lia].
  intros E. destruct Ha as (_ & He & _). destruct Hb as (_ & Hb & _). rewrite E, N.even_add, Hb in He. discriminate.
Qed.
Theorem tagged_null :
  lp_type lp_null = NULL_TYPE /\ lp_get_node lp_null = 0%N /\ lp_get_header lp_null = 0%N /\
  lp_node 0 = lp_null /\ lp_header 0 = lp_null.
Proof. repeat split. Qed.

Theorem tagged_match a : address a ->
  lp_match (lp_node a) = MNode a /\ lp_match (lp_header a) = MHeader a /\ lp_match lp_null = MNothing.
Proof.
  intros H. destruct (tagged_pointers a H) as (_ & E1 & E2 & _ & E3 & E4 & _). destruct H as (H0 & _).
  apply N.eqb_neq in H0. unfold lp_match. rewrite E1, E2, E3, H0. repeat split.
Qed.
Theorem words ns ks na ha acc : layout ns ks na ha acc -> forall p q,
  points_to ns ks p -> points_to ns ks q ->
  (word na ha p = word na ha q <-> p = q) /\
  lp_get_node (word na ha p) = or_null na (get_node p) /\
  lp_find_header acc (word na ha p) = or_null ha (find_header p).
Proof.
  intros (HN_ & Ah & In_ & Ih) p q Pp Pq.
  assert (An : forall n, In n ns -> address (na n)) by (intros n Hn; apply HN_; exact Hn).
  split; [split; [|congruence]|split].
  - destruct p as [|n|k], q as [|m|j]; cbn [word points_to] in *; intros E; try reflexivity.
    + symmetry in E. now apply (proj1 (proj2 (proj2 (proj2 (tagged_equality _ _ (An m Pq) (An m Pq)))))) in E.
    + symmetry in E. now apply (proj2 (proj2 (proj2 (proj2 (tagged_equality _ _ (Ah j Pq) (Ah j Pq)))))) in E.
    + now apply (proj1 (proj2 (proj2 (proj2 (tagged_equality _ _ (An n Pp) (An n Pp)))))) in E.
    + f_equal. apply In_; assumption.
    + now apply (proj1 (proj2 (proj2 (tagged_equality _ _ (An n Pp) (Ah j Pq))))) in E.
    + now apply (proj2 (proj2 (proj2 (proj2 (tagged_equality _ _ (Ah k Pp) (Ah k Pp)))))) in E.
    + symmetry in E. now apply (proj1 (proj2 (proj2 (tagged_equality _ _ (An m Pq) (Ah k Pp))))) in E.
    + f_equal. apply Ih; try assumption. apply (proj1 (proj2 (tagged_equality _ _ (Ah k Pp) (Ah j Pq)))). exact E.
  - destruct p as [|n|k]; cbn [word get_node or_null points_to] in *; [reflexivity| |].
    + exact (proj1 (proj2 (tagged_pointers _ (An n Pp)))).
    + exact (proj1 (proj2 (proj2 (proj2 (proj2 (proj2 (tagged_pointers _ (Ah k Pp)))))))).
  - unfold lp_find_header. destruct p as [|n|k]; cbn [word find_header or_null points_to] in *; [reflexivity| |].
    + destruct (tagged_pointers _ (An n Pp)) as (_ & E1 & E2 & _). rewrite E1, E2. cbn [N.eqb negb].
      pose proof (An n Pp) as (H0 & _). apply N.eqb_neq in H0. rewrite H0. cbn. apply HN_. exact Pp.
    + destruct (tagged_pointers _ (Ah k Pp)) as (_ & _ & _ & _ & E & _). rewrite E.
      pose proof (Ah k Pp) as (H0 & _). apply N.eqb_neq in H0. now rewrite H0.
Qed.

(** * Lists: moves *)

Lemma does_all_snoc w ops w1 op w2 : does_all w ops w1 -> does w1 op w2 -> does_all w (ops ++ [op]) w2.
Proof.
  intros H. induction H as [w|w o w1 os w2' Hd Ha IH]; intros HD; cbn.
  - econstructor; [exact HD|constructor].
  - econstructor; [exact Hd|exact (IH HD)].
Qed.
Lemma run_ops_app fuel : forall ops1 ops2 h,
  run_ops fuel h (ops1 ++ ops2) = bind (run_ops fuel h ops1) (fun h1 => run_ops fuel h1 ops2).
Proof.
  induction ops1 as [|op r IH]; intros ops2 h; [reflexivity|]. cbn. destruct (run_op fuel h op); cbn; [apply IH|reflexivity..].
Qed.

Theorem list_moved fuel ops w op this other xs :
  does_all world0 ops w -> length ops < fuel -> this <> other -> w_lists w other = Some xs ->
  (op = MoveNew this other /\ w_lists w this = None) \/ (op = MoveAssign this other /\ w_lists w this = Some []) ->
  exists h, run_ops fuel heap0 (ops ++ [op]) = Ok h /\ shows fuel h this xs /\ shows fuel h other [] /\
    (forall l ys, l <> this -> l <> other -> w_lists w l = Some ys -> shows fuel h l ys) /\
    (forall n, h (HN n) <> None <-> node_exists w n).
Proof.
  intros HD Hf Nto Ho Hop.
  set (w2 := World (put (put (w_lists w) other (Some [])) this (Some xs)) (w_loose w)).
  assert (HD2 : does w op w2).
  { destruct Hop as [[-> Ht]|[-> Ht]]; [exact (D_MoveNew w this other xs Ht Ho)|exact (D_MoveAssign w this other xs Nto Ht Ho)]. }
  destruct (list_programs fuel (ops ++ [op]) w2 (does_all_snoc _ _ _ _ _ HD HD2)) as (h & E & S & _ & A).
  { rewrite app_length. cbn. lia. }
  exists h. split; [exact E|]. split; [apply S; subst w2; cbn; apply put_same|].
  split; [apply S; subst w2; cbn; rewrite put_other by congruence; apply put_same|].
  split; [intros l ys N1 N2 Hl; apply S; subst w2; cbn; rewrite !put_other by assumption; exact Hl|].
  intros n. rewrite A. subst w2. unfold node_exists, in_list. cbn [w_lists w_loose]. split; intros [X|(l & X)]; auto.
  - destruct (Nat.eq_dec l this) as [->|N1].
    + right. exists other. rewrite put_same in X. rewrite Ho. exact X.
    + rewrite put_other in X by exact N1.
      destruct (Nat.eq_dec l other) as [->|N2]; [rewrite put_same in X; destruct X|].
      rewrite put_other in X by exact N2. right. exists l. exact X.
  - right. destruct (Nat.eq_dec l other) as [->|N].
    + exists this. rewrite put_same. rewrite Ho in X. exact X.
    + exists l. destruct (Nat.eq_dec l this) as [->|N'].
      * destruct Hop as [[_ Ht]|[_ Ht]]; rewrite Ht in X; destruct X.
      * rewrite !put_other by assumption. exact X.
Qed.

Lemma move_over_one h l l' zs xs : l <> l' -> lrep h l zs -> lrep h l' xs ->
  exists h', hdr_move_assign h (HL l) (HL l') = Ok h' /\ lrep h' l xs /\ lrep h' l' [] /\
    (forall x, x <> HL l -> x <> HL l' -> (forall m, In m xs -> x <> HN m) -> h' x = h x).
Proof.
  intros Nl (A & _ & _) RL'.
  set (h0 := hupd h (HL l) (Some (Cell Null Null))).
  destruct (move_assign_one h0 l l' xs Nl) as (h' & E & R1 & R2 & F).
  { split; [apply hupd_same|]. split; [exact I|constructor]. }
  { apply (lrep_frame h); [apply hupd_other; congruence|intros; apply hupd_other; discriminate|exact RL']. }
  (* the assignment reads nothing of the target, so it yields pointwise the same *)
  destruct RL' as (A' & B' & C'). unfold hdr_move_assign in *.
  destruct (hid_eqb (HL l) (HL l')) eqn:EQ; [apply hid_eqb_eq in EQ; congruence|].
  assert (A0 : h0 (HL l) = Some (Cell Null Null)) by apply hupd_same.
  assert (A0' : h0 (HL l') = h (HL l')) by (apply hupd_other; congruence).
  rewrite A, A'. rewrite A0, A0', A' in E. cbn [of_opt bind c_next c_prev] in *.
  set (g1 := hupd (hupd h (HL l) (Some (Cell (head_ptr xs) Null))) (HL l') (Some (Cell Null Null))) in *.
  set (g0 := hupd (hupd h0 (HL l) (Some (Cell (head_ptr xs) Null))) (HL l') (Some (Cell Null Null))) in *.
  assert (EQ01 : forall x, g1 x = g0 x).
  { intros x. unfold g1, g0, h0, hupd. destruct (hid_eqb x (HL l')); [reflexivity|].
    destruct (hid_eqb x (HL l)); reflexivity. }
  destruct xs as [|m r]; cbn [head_ptr find_header bind] in *.
  - assert (G0 : g0 (HL l) = Some (Cell Null Null)).
    { unfold g0. rewrite hupd_other by congruence. apply hupd_same. }
    rewrite EQ01, G0. rewrite G0 in E. cbn [of_opt bind c_next c_prev find_header] in *.
    injection E as <-. exists g1. split; [reflexivity|].
    split; [apply (lrep_frame g0); [apply EQ01|intros; apply EQ01|exact R1]|].
    split; [apply (lrep_frame g0); [apply EQ01|intros; apply EQ01|exact R2]|].
    intros x N1 N2 N3. rewrite EQ01, (F x N1 N2 N3). apply hupd_other. exact N1.
  - unfold set_prev in *. rewrite EQ01. destruct (g0 (HN m)) as [cm|] eqn:GM; [|discriminate].
    cbn [of_opt bind] in *.
    set (k0 := hupd g0 (HN m) (Some (Cell (c_next cm) (ToHdr (HL l))))) in *.
    set (k1 := hupd g1 (HN m) (Some (Cell (c_next cm) (ToHdr (HL l))))) in *.
    assert (EK : forall x, k1 x = k0 x).
    { intros x. unfold k1, k0, hupd. destruct (hid_eqb x (HN m)); [reflexivity|apply EQ01]. }
    rewrite EK. assert (G0 : k0 (HL l) = Some (Cell (ToNode m) Null)).
    { unfold k0. rewrite hupd_other by discriminate. unfold g0. rewrite hupd_other by congruence. apply hupd_same. }
    rewrite G0 in *. cbn [of_opt bind c_next c_prev find_header] in *. injection E as <-.
    exists k1. split; [reflexivity|].
    split; [apply (lrep_frame k0); [apply EK|intros; apply EK|exact R1]|].
    split; [apply (lrep_frame k0); [apply EK|intros; apply EK|exact R2]|].
    intros x N1 N2 N3. rewrite EK, (F x N1 N2 N3). apply hupd_other. exact N1.
Qed.

(** Assigning over a list that has elements: they go on existing, in no list. *)
Theorem assign_loses fuel ops w this other z zs xs :
  does_all world0 ops w -> length ops <= fuel -> this <> other ->
  w_lists w this = Some (z :: zs) -> w_lists w other = Some xs ->
  exists h, run_ops fuel heap0 (ops ++ [MoveAssign this other]) = Ok h /\
    l_elements fuel h this = Ok xs /\ l_elements fuel h other = Ok [] /\
    forall n, In n (z :: zs) -> h (HN n) <> None /\
      forall l ys, l_elements fuel h l = Ok ys -> ~ In n ys.
Proof.
  intros HD Hf Nto Ht Ho.
  destruct (run_ops_ok fuel ops world0 w heap0 0 HD wrep0) as (h & E & R & B); [intros l ys X; discriminate|exact Hf|].
  unfold wrep in R.
  assert (RT := hr_list _ _ _ R _ _ Ht). assert (RO := hr_list _ _ _ R _ _ Ho).
  destruct (move_over_one h this other (z :: zs) xs Nto RT RO) as (h' & E' & R1 & R2 & F).
  exists h'. rewrite run_ops_app, E. cbn [bind run_ops run_op]. unfold l_move_assign. rewrite E'. cbn [bind].
  split; [reflexivity|]. assert (ET := lrep_elements fuel h' this xs R1 (B _ _ Ho)).
  assert (EO := lrep_elements fuel h' other [] R2 (Nat.le_0_l _)).
  split; [exact ET|]. split; [exact EO|].
  intros n Hn. assert (Nx : ~ In n xs).
  { intros X. apply Nto. exact (hr_disj _ _ _ R _ _ _ _ n Ht Ho Hn X). }
  split.
  - rewrite F; [exact (hrep_alive h _ _ this _ n R Ht Hn)|discriminate|discriminate|].
    intros m Hm X. injection X as ->. contradiction.
  - intros l ys EL. destruct (Nat.eq_dec l this) as [->|N1]; [congruence|].
    destruct (Nat.eq_dec l other) as [->|N2]; [rewrite EO in EL; injection EL as <-; intros []|].
    destruct (w_lists w l) as [qs|] eqn:EQ.
    + assert (RQ : lrep h' l qs).
      { apply (lrep_frame h); [|intros m Hm|exact (hr_list _ _ _ R _ _ EQ)].
        - apply F; [congruence|congruence|discriminate].
        - apply F; [discriminate|discriminate|]. intros k Hk X. injection X as ->.
          apply N2. exact (hr_disj _ _ _ R _ _ _ _ k EQ Ho Hm Hk). }
      rewrite (lrep_elements fuel h' l qs RQ (B _ _ EQ)) in EL. injection EL as <-.
      intros X. apply N1. exact (hr_disj _ _ _ R _ _ _ _ n EQ Ht X Hn).
    + unfold l_elements, l_begin in EL. rewrite F in EL; [|congruence|congruence|discriminate].
      rewrite (hr_none _ _ _ R l EQ) in EL. discriminate.
Qed.

Theorem back_undefined h l : l_back h l = Undef.
Proof. reflexivity. Qed.

(** * Graphs *)

Lemma gdoes_all_snoc w ops w1 op w2 : gdoes_all w ops w1 -> gdoes w1 op w2 -> gdoes_all w (ops ++ [op]) w2.
Proof.
  intros H. induction H as [w|w o w1 os w2' Hd Ha IH]; intros HD; cbn.
  - econstructor; [exact HD|constructor].
  - econstructor; [exact Hd|exact (IH HD)].
Qed.
Lemma run_gops_app fuel : forall ops1 ops2 m,
  run_gops fuel m (ops1 ++ ops2) = bind (run_gops fuel m ops1) (fun m1 => run_gops fuel m1 ops2).
Proof.
  induction ops1 as [|op r IH]; intros ops2 h; [reflexivity|]. cbn. destruct (run_gop fuel h op); cbn; [apply IH|reflexivity..].
Qed.

Lemma map_fst_filter (E : list (nat * edge)) m (f : edge -> bool) :
  (forall e x, In (e, x) E -> m_edge m e = Some x) ->
  map fst (filter (fun p => f (snd p)) E) = filter (fun e => ebool m e f) (map fst E).
Proof.
  induction E as [|[e x] r IH]; intros H; [reflexivity|]. cbn.
  unfold ebool at 1. rewrite (H e x) by (left; reflexivity).
  rewrite <- IH by (intros e' x' H'; apply H; right; exact H').
  destruct (f x); reflexivity.
Qed.

(** What clear_if and the destructor do, in terms of what could be observed before. *)
Theorem graph_removed fuel ops w g ns op (gone : nat -> bool) :
  gdoes_all graphs0 ops w -> length ops < fuel -> gr_nodes w g = Some ns ->
  (exists f, op = GClearIf g f /\ forall n, gone n = among ns n && f n) \/
  (op = GDestroy g /\ forall n, gone n = among ns n) ->
  exists m m', run_gops fuel gmem0 ops = Ok m /\ run_gop fuel m op = Ok m' /\
    (forall n, m_node m' n = if gone n then None else m_node m n) /\
    (forall e x, m_edge m' e = Some x <-> m_edge m e = Some x /\ gone (e_src x) = false /\ gone (e_tgt x) = false) /\
    (forall n es, gone n = false -> n_out_edges fuel m n = Ok es ->
       n_out_edges fuel m' n = Ok (filter (fun e => ebool m e (fun x => negb (gone (e_tgt x)))) es)) /\
    (forall n es, gone n = false -> n_in_edges fuel m n = Ok es ->
       n_in_edges fuel m' n = Ok (filter (fun e => ebool m e (fun x => negb (gone (e_src x)))) es)) /\
    (forall g' xs, g' <> g -> g_elements fuel m g' = Ok xs -> g_elements fuel m' g' = Ok xs) /\
    (forall f, op = GClearIf g f -> g_elements fuel m' g = Ok (filter (fun n => negb (f n)) (map n_id ns))).
Proof.
  intros HD Hf Hg Hop.
  destruct (run_gops_ok fuel ops graphs0 w gmem0 0 HD rep0) as (m & E & R & B);
    [split; [cbn; lia|intros q qs X; discriminate]|lia|].
  assert (HW : exists w2, gdoes w op w2 /\ gr_edges w2 = without gone (gr_edges w) /\
                 (forall g', g' <> g -> gr_nodes w2 g' = gr_nodes w g') /\
                 (forall n, node_in w2 n <-> node_in w n /\ gone n = false) /\
                 (forall f, op = GClearIf g f -> gr_nodes w2 g = Some (filter (fun x => negb (f (n_id x))) ns))).
  { assert (DJ : forall g' ms x, g' <> g -> gr_nodes w g' = Some ms -> In x (map n_id ms) -> among ns x = false).
    { intros g' ms x N X Y. destruct (among ns x) eqn:A; [|reflexivity]. exfalso.
      rewrite among_memb in A. apply memb_in in A. destruct (rp_dom _ _ R) as (D & G & _).
      apply N. exact (hr_disj _ _ _ (gr_n _ _ _ _ _ G) _ _ _ _ x (ids_some _ _ _ X) (ids_some _ _ _ Hg) Y A). }
    assert (AM : forall x, In x (map n_id ns) <-> among ns x = true).
    { intros x. rewrite among_memb. symmetry. apply memb_in. }
    destruct Hop as [(f & -> & Hgone)|[-> Hgone]].
    - eexists. split; [exact (GD_ClearIf w g f ns Hg)|]. cbn [gr_edges gr_nodes].
      split; [apply without_ext; intros n; symmetry; apply Hgone|].
      split; [intros g' N; apply put_other; exact N|]. split; [|intros f0 X; injection X as <-; apply put_same].
      intros n. rewrite Hgone. split.
      + intros (g' & ms & X & Y). cbn [gr_nodes] in X. unfold put in X. destruct (Nat.eqb_spec g' g) as [->|N].
        * injection X as <-. rewrite map_filter_ids in Y. apply filter_In in Y. destruct Y as [Y1 Y2].
          split; [exists g, ns; auto|]. apply Bool.negb_true_iff in Y2. rewrite Y2. apply Bool.andb_false_r.
        * split; [exists g', ms; auto|]. rewrite (DJ g' ms n N X Y). reflexivity.
      + intros ((g' & ms & X & Y) & Z). destruct (Nat.eq_dec g' g) as [->|N].
        * rewrite Hg in X. injection X as <-. exists g, (filter (fun x => negb (f (n_id x))) ns). cbn [gr_nodes].
          rewrite put_same. split; [reflexivity|]. rewrite map_filter_ids. apply filter_In. split; [exact Y|].
          apply AM in Y. rewrite Y in Z. cbn in Z. rewrite Z. reflexivity.
        * exists g', ms. cbn [gr_nodes]. rewrite put_other by exact N. auto.
    - eexists. split; [exact (GD_Destroy w g ns Hg)|]. cbn [gr_edges gr_nodes].
      split; [apply without_ext; intros n; symmetry; apply Hgone|].
      split; [intros g' N; apply put_other; exact N|]. split; [|intros f0 X; discriminate].
      intros n. rewrite Hgone. split.
      + intros (g' & ms & X & Y). cbn [gr_nodes] in X. unfold put in X.
        destruct (Nat.eqb_spec g' g) as [->|N]; [discriminate|].
        split; [exists g', ms; auto|]. exact (DJ g' ms n N X Y).
      + intros ((g' & ms & X & Y) & Z). destruct (Nat.eq_dec g' g) as [->|N].
        * rewrite Hg in X. injection X as <-. apply AM in Y. congruence.
        * exists g', ms. cbn [gr_nodes]. rewrite put_other by exact N. auto. }
  destruct HW as (w2 & D2 & EE & EG & EN & EC).
  destruct (run_gop_ok fuel w op w2 m D2 R B) as (m' & E2 & R2).
  assert (B2 : gbounded fuel w2).
  { destruct B as [B1 B2]. split; [rewrite EE; eapply Nat.le_trans; [apply without_len|exact B1]|].
    intros g' ms X. destruct (Nat.eq_dec g' g) as [->|N]; [|apply (B2 g'); rewrite <- EG by exact N; exact X].
    specialize (B2 g ns Hg). destruct Hop as [(f & Eop & _)|[-> _]].
    - rewrite (EC f Eop) in X. injection X as <-. eapply Nat.le_trans; [apply filter_len|exact B2].
    - inversion D2; subst. cbn [gr_nodes] in X. rewrite put_same in X. discriminate. }
  destruct (rep_shows fuel m w R B) as (S1 & S2 & S3 & S4).
  destruct (rep_shows fuel m' w2 R2 B2) as (T1 & T2 & T3 & T4).
  exists m, m'. split; [exact E|]. split; [exact E2|].
  assert (ELE : forall h sel D (w0 : graphs) n es, hrep h (elist sel D (gr_edges w0)) none ->
            gbounded fuel w0 -> l_elements fuel h n = Ok es ->
            D n = true /\ es = map fst (filter (sel_is sel n) (gr_edges w0))).
  { intros h sel D w0 n es RH BB EL. destruct (D n) eqn:HDn.
    - split; [reflexivity|]. assert (LR : lrep h n (map fst (filter (sel_is sel n) (gr_edges w0)))).
      { apply (hr_list _ _ _ RH). unfold elist. rewrite HDn. reflexivity. }
      rewrite (lrep_elements fuel h n _ LR) in EL; [injection EL as <-; reflexivity|].
      rewrite map_length. eapply Nat.le_trans; [apply filter_len|exact (proj1 BB)].
    - unfold l_elements, l_begin in EL. rewrite (hr_none _ _ _ RH n) in EL; [discriminate|].
      unfold elist. rewrite HDn. reflexivity. }
  assert (GET : forall h sel D (w0 : graphs) n, hrep h (elist sel D (gr_edges w0)) none ->
            gbounded fuel w0 -> D n = true ->
            l_elements fuel h n = Ok (map fst (filter (sel_is sel n) (gr_edges w0)))).
  { intros h sel D w0 n RH BB HDn. apply (lrep_elements fuel h n).
    - apply (hr_list _ _ _ RH). unfold elist. rewrite HDn. reflexivity.
    - rewrite map_length. eapply Nat.le_trans; [apply filter_len|exact (proj1 BB)]. }
  destruct (rp_dom _ _ R) as (D & G & HDw). destruct (rp_dom _ _ R2) as (D' & G' & HDw').
  assert (HE : forall e x, In (e, x) (gr_edges w) -> m_edge m e = Some x) by (intros e x; apply S2).
  split; [|split; [|split; [|split; [|split]]]].
  - intros n. destruct (gone n) eqn:Gn.
    + destruct (m_node m' n) eqn:X; [|reflexivity]. exfalso.
      assert (Y : node_in w2 n) by (apply T3; congruence). apply EN in Y. destruct Y. congruence.
    + destruct (m_node m n) as [c|] eqn:X.
      * assert (Y : node_in w n) by (apply S3; congruence).
        assert (Y2 : node_in w2 n) by (apply EN; auto). destruct Y2 as (g' & ms & Hg' & Hm).
        apply in_map_iff in Hm. destruct Hm as (x & Hx & Hin).
        pose proof (rp_data _ _ R2 g' ms x Hg' Hin) as P1.
        assert (Y3 : exists g'' ms'', gr_nodes w g'' = Some ms'' /\ In x ms'').
        { destruct (Nat.eq_dec g' g) as [->|N]; [|exists g', ms; rewrite <- EG by exact N; auto].
          exists g, ns. split; [exact Hg|]. destruct Hop as [(f & Eop & _)|[-> _]].
          - rewrite (EC f Eop) in Hg'. injection Hg' as <-. apply filter_In in Hin. exact (proj1 Hin).
          - inversion D2; subst. cbn [gr_nodes] in Hg'. rewrite put_same in Hg'. discriminate. }
        destruct Y3 as (g'' & ms'' & Hg'' & Hin''). pose proof (rp_data _ _ R g'' ms'' x Hg'' Hin'') as P2.
        rewrite Hx in P1, P2. congruence.
      * destruct (m_node m' n) eqn:X'; [|reflexivity]. exfalso.
        assert (Y : node_in w2 n) by (apply T3; congruence). apply EN in Y. destruct Y as [Y _]. apply S3 in Y. congruence.
  - intros e x. rewrite T2, S2, EE. unfold without. rewrite filter_In. cbn [snd].
    rewrite Bool.negb_true_iff, Bool.orb_false_iff. tauto.
  - intros n es Gn EL. destruct (ELE _ _ _ _ n es (gr_o _ _ _ _ _ G) B EL) as [Dn ->].
    unfold n_out_edges. rewrite (GET _ _ _ _ n (gr_o _ _ _ _ _ G') B2).
    2:{ apply HDw', EN. split; [apply HDw; exact Dn|exact Gn]. }
    f_equal. rewrite EE. unfold without. rewrite filter_comm, filter_filter.
    rewrite <- (map_fst_filter _ m (fun x => negb (gone (e_tgt x)))).
    2:{ intros e x H. apply filter_In in H. exact (HE e x (proj1 H)). }
    f_equal. rewrite filter_filter. apply filter_ext. intros p. unfold sel_is.
    destruct (Nat.eqb_spec (e_src (snd p)) n) as [->|]; cbn; [rewrite Gn; reflexivity|reflexivity].
  - intros n es Gn EL. destruct (ELE _ _ _ _ n es (gr_i _ _ _ _ _ G) B EL) as [Dn ->].
    unfold n_in_edges. rewrite (GET _ _ _ _ n (gr_i _ _ _ _ _ G') B2).
    2:{ apply HDw', EN. split; [apply HDw; exact Dn|exact Gn]. }
    f_equal. rewrite EE. unfold without. rewrite filter_comm, filter_filter.
    rewrite <- (map_fst_filter _ m (fun x => negb (gone (e_src x)))).
    2:{ intros e x H. apply filter_In in H. exact (HE e x (proj1 H)). }
    f_equal. rewrite filter_filter. apply filter_ext. intros p. unfold sel_is.
    destruct (Nat.eqb_spec (e_tgt (snd p)) n) as [->|]; cbn; [rewrite Gn, Bool.orb_false_r; reflexivity|reflexivity].
  - intros g' xs N EL. unfold g_elements in *. destruct (gr_nodes w g') as [ms|] eqn:Hg'.
    + destruct (S1 g' ms Hg') as [X _]. unfold g_elements in X. rewrite X in EL. injection EL as <-.
      rewrite <- EG in Hg' by exact N. exact (proj1 (T1 g' ms Hg')).
    + apply S4 in Hg'. unfold l_elements, l_begin in EL. rewrite Hg' in EL. discriminate.
  - intros f Eop. pose proof (T1 g _ (EC f Eop)) as [X _]. rewrite map_filter_ids in X. exact X.
Qed.

(** When every graph is destroyed, nothing is left. *)
Theorem graphs_gone fuel ops w : gdoes_all graphs0 ops w -> length ops <= fuel ->
  (forall g ns, gr_nodes w g = Some ns -> ns = []) ->
  exists m, run_gops fuel gmem0 ops = Ok m /\
    (forall n, m_node m n = None) /\ (forall e, m_edge m e = None) /\
    (forall n, m_nodes m (HN n) = None) /\ (forall k, m_out m k = None) /\ (forall k, m_in m k = None).
Proof.
  intros HD Hf Hno.
  destruct (graph_headers fuel ops w HD Hf) as (m & E & H1 & H2 & H3 & H4 & H5).
  destruct (graph_programs fuel ops w HD Hf) as (m0 & E0 & _ & S2 & S3 & S4).
  rewrite E in E0. injection E0 as <-. exists m. split; [exact E|].
  assert (NN : forall n, ~ node_in w n).
  { intros n (g & ns & Hg & Hn). rewrite (Hno g ns Hg) in Hn. destruct Hn. }
  assert (NE : gr_edges w = []).
  { destruct (gr_edges w) as [|[e x] r] eqn:EE; [reflexivity|]. exfalso.
    destruct (run_gops_ok fuel ops graphs0 w gmem0 0 HD rep0) as (m1 & _ & R & _);
      [split; [cbn; lia|intros q qs X; discriminate]|lia|].
    destruct (rep_edges_alive m1 w (e, x) R) as [X _]; [rewrite EE; left; reflexivity|]. exact (NN _ X). }
  assert (NO : forall (A : Type) (o : option A) (P : Prop), (o <> None <-> P) -> ~ P -> o = None).
  { intros A [a|] P HP NP; [|reflexivity]. exfalso. apply NP, HP. discriminate. }
  split; [intros n; exact (NO _ _ _ (S3 n) (NN n))|].
  split.
  { intros e. destruct (m_edge m e) as [x|] eqn:X; [|reflexivity]. apply S2 in X. rewrite NE in X. destruct X. }
  split; [intros n; exact (NO _ _ _ (H1 n) (NN n))|].
  rewrite NE in H4, H5.
  split; intros [n|e]; [exact (NO _ _ _ (H2 n) (NN n))|exact (NO _ _ _ (H4 e) (fun x => x))|
                        exact (NO _ _ _ (H3 n) (NN n))|exact (NO _ _ _ (H5 e) (fun x => x))].
Qed.

(** * The calls made by insert_set *)

Inductive builds : dag -> list call -> dag -> Prop :=
| B_nil d : builds d [] d
| B_node d a name t cs d' : builds (emplace d a name t) cs d' -> builds d (Emplace a name t :: cs) d'
| B_edge d s t k cs d' : In s (node_ids d) -> In t (node_ids d) ->
    builds (add_edge d s t k) cs d' -> builds d (AddEdge s t k :: cs) d'.

Lemma builds_app d cs d1 cs' d2 : builds d cs d1 -> builds d1 cs' d2 -> builds d (cs ++ cs') d2.
Proof. intros H. induction H; intros H2; cbn; [exact H2|constructor; auto|constructor; auto]. Qed.
Lemma builds_nodes d cs d' : builds d cs d' -> exists ns, d_nodes d' = ns ++ d_nodes d.
Proof.
  intros H. induction H as [d|d a name t cs d' H IH|d s t k cs d' Hs Ht H IH].
  - exists []. reflexivity.
  - destruct IH as (ns & E). exists (ns ++ [DNode a name t]). rewrite <- app_assoc. exact E.
  - exact IH.
Qed.
Lemma builds_ids d cs d' x : builds d cs d' -> In x (node_ids d) -> In x (node_ids d').
Proof.
  intros H Hx. destruct (builds_nodes d cs d' H) as (ns & E). unfold node_ids. rewrite E, map_app. apply in_or_app. auto.
Qed.
Lemma builds_apply d cs d' : builds d cs d' -> fold_left apply_call cs d = d'.
Proof. intros H. induction H; [reflexivity|exact IHbuilds|exact IHbuilds]. Qed.

Section Calls.
Variable st : store.
Variable tmp : list (string * tid).
Variable addr : tid -> nid.

Definition indexed (b : bstate) : Prop := forall t, In t (b_index b) -> In (addr t) (node_ids (b_dag b)).
Definition step_ok (t : tid) (b b' : bstate) : Prop :=
  exists cs, builds (b_dag b) cs (b_dag b') /\ indexed b' /\ incl (b_index b) (b_index b') /\ In t (b_index b').

Lemma dfs_deps_calls rec t :
  (forall d b b', indexed b -> rec d b = Built b' -> step_ok d b b') ->
  forall ds b b', indexed b -> In t (b_index b) -> dfs_deps rec addr t ds b = Built b' ->
  exists cs, builds (b_dag b) cs (b_dag b') /\ indexed b' /\ incl (b_index b) (b_index b').
Proof.
  intros HR. induction ds as [|d ds IH]; intros b b' HI Ht E; cbn [dfs_deps] in E.
  - injection E as <-. exists []. split; [constructor|]. split; [exact HI|apply incl_refl].
  - destruct (rec d b) as [b1| |] eqn:E1; [|discriminate|discriminate].
    destruct (HR d b b1 HI E1) as (cs1 & B1 & I1 & L1 & D1).
    assert (Ht1 := L1 t Ht).
    apply IH in E; [|intros x Hx; exact (I1 x Hx)|exact Ht1].
    destruct E as (cs2 & B2 & I2 & L2). cbn [b_dag b_index] in *.
    exists (cs1 ++ AddEdge (addr t) (addr d) AFTER :: AddEdge (addr t) (addr d) REQUIRES ::
            AddEdge (addr t) (addr d) INVALIDATED_BY :: cs2).
    split; [|split; [exact I2|intros x Hx; apply L2, L1, Hx]].
    apply (builds_app _ _ _ _ _ B1).
    assert (A1 := I1 t Ht1). assert (A2 := I1 d D1).
    constructor; [exact A1|exact A2|]. constructor; [exact A1|exact A2|]. constructor; [exact A1|exact A2|exact B2].
Qed.

Lemma dfs_calls fuel : forall t b b', indexed b -> dfs fuel st tmp addr t b = Built b' -> step_ok t b b'.
Proof.
  induction fuel as [|f IH]; intros t b b' HI E; cbn [dfs] in E; [discriminate|].
  destruct (mem t (b_index b)) eqn:Em.
  - injection E as <-. exists []. split; [constructor|]. split; [exact HI|]. split; [apply incl_refl|].
    apply mem_In. exact Em.
  - destruct (mem t (st_dom st)); cbn [negb] in E; [|discriminate].
    set (name := match tmp_get tmp t with Some n => n | None => EmptyString end) in *.
    apply dfs_deps_calls in E; [|exact IH| |left; reflexivity].
    + destruct E as (cs & B & I & L). cbn [b_dag b_index] in *.
      exists (Emplace (addr t) name t :: cs). split; [constructor; exact B|]. split; [exact I|].
      split; [intros x Hx; apply L; right; exact Hx|apply L; left; reflexivity].
    + intros x Hx. cbn [b_dag b_index] in *. destruct Hx as [<-|Hx]; [left; reflexivity|right; exact (HI x Hx)].
Qed.

Lemma dfs_all_calls fuel filt : forall tmp' b b', indexed b -> dfs_all fuel st tmp addr filt tmp' b = Built b' ->
  exists cs, builds (b_dag b) cs (b_dag b') /\ indexed b'.
Proof.
  induction tmp' as [|[name t] r IH]; intros b b' HI E; cbn [dfs_all] in E.
  - injection E as <-. exists []. split; [constructor|exact HI].
  - destruct (contains filt name).
    + destruct (dfs fuel st tmp addr t b) as [b1| |] eqn:E1; [|discriminate|discriminate].
      destruct (dfs_calls fuel t b b1 HI E1) as (cs1 & B1 & I1 & _ & _).
      destruct (IH b1 b' I1 E) as (cs2 & B2 & I2). exists (cs1 ++ cs2).
      split; [exact (builds_app _ _ _ _ _ B1 B2)|exact I2].
    + exact (IH b b' HI E).
Qed.

Lemma opt_calls index t k : forall ds g,
  (forall x, In x index -> In (addr x) (node_ids g)) -> In t index ->
  exists cs, builds g cs (add_opt_edges index addr t k ds g) /\ node_ids (add_opt_edges index addr t k ds g) = node_ids g.
Proof.
  unfold add_opt_edges. induction ds as [|d ds IH]; intros g HI Ht; cbn [fold_left].
  - exists []. split; [constructor|reflexivity].
  - destruct (mem d index) eqn:Em.
    + destruct (IH (add_edge g (addr t) (addr d) k)) as (cs & B & N); [exact HI|exact Ht|].
      exists (AddEdge (addr t) (addr d) k :: cs). split; [|exact N].
      constructor; [exact (HI t Ht)|apply HI, mem_In, Em|exact B].
    + exact (IH g HI Ht).
Qed.

Lemma second_calls index : forall l g,
  (forall x, In x index -> In (addr x) (node_ids g)) -> incl l index ->
  exists cs, builds g cs (fold_left
          (fun g t =>
             let g := add_opt_edges index addr t AFTER (t_run_after (st_get st t)) g in
             add_opt_edges index addr t INVALIDATED_BY (t_invalidated_by (st_get st t)) g) l g).
Proof.
  induction l as [|t l IH]; intros g HI HL; cbn [fold_left].
  - exists []. constructor.
  - assert (Ht : In t index) by (apply HL; left; reflexivity).
    destruct (opt_calls index t AFTER (t_run_after (st_get st t)) g HI Ht) as (c1 & B1 & N1).
    destruct (opt_calls index t INVALIDATED_BY (t_invalidated_by (st_get st t)) _
                ltac:(intros x Hx; rewrite N1; exact (HI x Hx)) Ht) as (c2 & B2 & N2).
    destruct (IH _ ltac:(intros x Hx; rewrite N2, N1; exact (HI x Hx)) ltac:(intros x Hx; apply HL; right; exact Hx))
      as (c3 & B3).
    exists (c1 ++ c2 ++ c3). apply (builds_app _ _ _ _ _ B1), (builds_app _ _ _ _ _ B2). exact B3.
Qed.
End Calls.

Lemma insert_set_calls g0 st ts filt addr ord1 ord2 g n : some_order ord2 ->
  insert_set g0 st ts filt addr ord1 ord2 = Built (g, n) -> exists cs, builds g0 cs g.
Proof.
  intros Ho E. unfold insert_set in E.
  destruct (dfs_all _ st (for_each_task ts) addr filt _ _) as [b| |] eqn:E1; [|discriminate|discriminate].
  injection E as <- _.
  destruct (dfs_all_calls st (for_each_task ts) addr _ filt _ (BState g0 [] 0) b ltac:(intros t []) E1) as (c1 & B1 & I1).
  destruct (second_calls st addr (b_index b) (ord2 (b_index b)) (b_dag b) I1) as (c2 & B2).
  { intros x Hx. apply (Permutation.Permutation_in x (Ho (b_index b))). exact Hx. }
  exists (c1 ++ c2). exact (builds_app _ _ _ _ _ B1 B2).
Qed.

(** * The same calls in memory *)

Lemma in_memory_does g ea : (forall i j, ea i = ea j -> i = j) ->
  forall d cs d', builds d cs d' -> NoDup (node_ids d') ->
  forall i w, gr_nodes w g = Some (d_nodes d) -> (forall g', g' <> g -> gr_nodes w g' = None) ->
    map snd (gr_edges w) = d_edges d -> (forall e, In e (map fst (gr_edges w)) -> exists j, j < i /\ e = ea j) ->
  exists w', gdoes_all w (in_memory g ea i cs) w' /\ gr_nodes w' g = Some (d_nodes d') /\
    (forall g', g' <> g -> gr_nodes w' g' = None) /\ map snd (gr_edges w') = d_edges d'.
Proof.
  intros Hea d cs d' H. induction H as [d|d a name t cs d' H IH|d s t k cs d' Hs Ht H IH]; intros ND i w W1 W2 W3 W4.
  - exists w. split; [constructor|]. auto.
  - destruct (IH ND i (Graphs (put (gr_nodes w) g (Some (DNode a name t :: d_nodes d))) (gr_edges w))) as (w' & D' & X).
    + cbn. apply put_same.
    + intros g' N. cbn. rewrite put_other by exact N. exact (W2 g' N).
    + exact W3.
    + exact W4.
    + exists w'. split; [|exact X]. cbn [in_memory]. econstructor; [|exact D']. apply GD_Emplace; [exact W1|].
      intros (g' & ns & Y & Z). destruct (Nat.eq_dec g' g) as [->|N]; [|rewrite W2 in Y by exact N; discriminate].
      rewrite W1 in Y. injection Y as <-.
      destruct (builds_nodes _ _ _ H) as (ns & E). unfold node_ids in ND. rewrite E, map_app in ND. cbn in ND.
      apply NoDup_remove_2 in ND. apply ND, in_or_app. right. exact Z.
  - destruct (IH ND (S i) (Graphs (gr_nodes w) ((ea i, Edge s t k) :: gr_edges w))) as (w' & D' & X).
    + exact W1.
    + exact W2.
    + cbn. rewrite W3. reflexivity.
    + intros e [<-|He]; [exists i; split; [lia|reflexivity]|]. destruct (W4 e He) as (j & Hj & ->). exists j. split; [lia|reflexivity].
    + exists w'. split; [|exact X]. cbn [in_memory]. econstructor; [|exact D']. apply GD_AddEdge.
      * intros He. destruct (W4 _ He) as (j & Hj & Ej). apply Hea in Ej. lia.
      * exists g, (d_nodes d). auto.
      * exists g, (d_nodes d). auto.
Qed.

Lemma in_memory_length g ea : forall cs i, length (in_memory g ea i cs) = length cs.
Proof. induction cs as [|[a n t|s t k] r IH]; intros i; cbn; [reflexivity|rewrite IH; reflexivity..]. Qed.

Lemma shown_graph fuel m w g d : gshows fuel m w -> gr_nodes w g = Some (d_nodes d) ->
  (forall g', g' <> g -> gr_nodes w g' = None) -> map snd (gr_edges w) = d_edges d -> holds_graph fuel m g d.
Proof.
  intros (S1 & S2 & S3 & S4) W1 W2 W3. destruct (S1 g (d_nodes d) W1) as [E HX].
  assert (EE : forall sel n, map (m_edge m) (map fst (filter (fun p => sel (snd p) =? n) (gr_edges w))) =
                 map Some (filter (fun e => sel e =? n) (d_edges d))).
  { intros sel n. rewrite <- W3. assert (HE : forall e x, In (e, x) (gr_edges w) -> m_edge m e = Some x) by (intros; apply S2; assumption).
    clear - HE. induction (gr_edges w) as [|[e x] r IH]; [reflexivity|]. cbn [filter map snd].
    assert (IH' := IH ltac:(intros e' x' H'; apply HE; right; exact H')).
    destruct (sel x =? n); cbn [map fst]; [|exact IH']. rewrite (HE e x) by (left; reflexivity). rewrite IH'. reflexivity. }
  split; [exact E|]. split; [|split].
  - intros x Hx. destruct (HX x Hx) as (A & B & C). split; [exact A|]. split.
    + eexists. split; [exact B|]. exact (EE e_src (n_id x)).
    + eexists. split; [exact C|]. exact (EE e_tgt (n_id x)).
  - intros n. rewrite S3. split.
    + intros (g' & ns & Hg' & Hn). destruct (Nat.eq_dec g' g) as [->|N]; [|rewrite W2 in Hg' by exact N; discriminate].
      rewrite W1 in Hg'. injection Hg' as <-. exact Hn.
    + intros Hn. exists g, (d_nodes d). auto.
  - intros e x H. apply S2 in H. rewrite <- W3. exact (in_map snd _ _ H).
Qed.

Theorem built_in_memory st ts filt addr ord1 ord2 d n g ea :
  some_order ord1 -> some_order ord2 -> fresh_nodes dag0 addr (selected st ts filt) ->
  (forall i j, ea i = ea j -> i = j) ->
  insert_set dag0 st ts filt addr ord1 ord2 = Built (d, n) ->
  exists cs, fold_left apply_call cs dag0 = d /\
    forall fuel, length cs + 2 <= fuel ->
    exists m m', run_gops fuel gmem0 (GNew g :: in_memory g ea 0 cs) = Ok m /\ holds_graph fuel m g d /\
                 g_destroy fuel m g = Ok m' /\ all_freed m'.
Proof.
  intros Ho1 Ho2 Hfr Hea E. destruct (insert_set_calls _ _ _ _ _ _ _ _ _ Ho2 E) as (cs & B).
  exists cs. split; [exact (builds_apply _ _ _ B)|]. intros fuel Hf.
  assert (WF : wf_dag d).
  { apply (built_wf dag0 st ts filt addr ord1 ord2 Ho1 Ho2 d n E); [split; [constructor|intros e []]|exact Hfr]. }
  destruct (in_memory_does g ea Hea dag0 cs d B (proj1 WF) 0 (Graphs (put (fun _ => None) g (Some [])) []))
    as (w & D & W1 & W2 & W3).
  { apply put_same. } { intros g' N. cbn. rewrite put_other by exact N. reflexivity. } { reflexivity. } { intros e []. }
  assert (DA : gdoes_all graphs0 (GNew g :: in_memory g ea 0 cs) w).
  { econstructor; [|exact D]. apply GD_New. reflexivity. }
  destruct (graph_programs fuel _ w DA) as (m & R & S); [cbn; rewrite in_memory_length; lia|].
  assert (DA2 := gdoes_all_snoc _ _ _ _ _ DA (GD_Destroy w g _ W1)).
  set (w2 := Graphs _ _) in DA2.
  assert (W2' : forall g', gr_nodes w2 g' = None).
  { intros g'. subst w2. cbn [gr_nodes]. unfold put. destruct (Nat.eqb_spec g' g); [reflexivity|]. apply W2. assumption. }
  destruct (graphs_gone fuel _ w2 DA2) as (m' & R' & F1 & F2 & F3 & F4 & F5).
  { rewrite app_length. cbn. rewrite in_memory_length. lia. }
  { intros g' ns X. rewrite W2' in X. discriminate. }
  rewrite run_gops_app, R in R'. cbn [bind run_gops run_gop] in R'.
  destruct (g_destroy fuel m g) as [m1| |] eqn:GD; [|discriminate|discriminate]. cbn in R'. injection R' as ->.
  exists m, m'. split; [exact R|]. split; [exact (shown_graph fuel m w g d S W1 W2 W3)|]. split; [exact GD|].
  split; [exact F1|]. split; [exact F2|]. split; [|split; assumption].
  intros [k|k]; [|exact (F3 k)].
  destruct (graph_programs fuel _ w2 DA2) as (m2 & R2 & _ & _ & _ & S4).
  { rewrite app_length. cbn. rewrite in_memory_length. lia. }
  rewrite run_gops_app, R in R2. cbn [bind run_gops run_gop] in R2. rewrite GD in R2. cbn in R2. injection R2 as <-.
  apply S4. apply W2'.
Qed.

Theorem clear_if_exact fuel ops w g ns f :
  gdoes_all graphs0 ops w -> length ops < fuel -> gr_nodes w g = Some ns ->
  let gone n := among ns n && f n in
  exists m m', run_gops fuel gmem0 ops = Ok m /\ g_clear_if fuel m g f = Ok m' /\
    (forall n, m_node m' n = if gone n then None else m_node m n) /\
    (forall e x, m_edge m' e = Some x <-> m_edge m e = Some x /\ gone (e_src x) = false /\ gone (e_tgt x) = false) /\
    (forall n es, gone n = false -> n_out_edges fuel m n = Ok es ->
       n_out_edges fuel m' n = Ok (filter (fun e => ebool m e (fun x => negb (gone (e_tgt x)))) es)) /\
    (forall n es, gone n = false -> n_in_edges fuel m n = Ok es ->
       n_in_edges fuel m' n = Ok (filter (fun e => ebool m e (fun x => negb (gone (e_src x)))) es)) /\
    (forall g' xs, g' <> g -> g_elements fuel m g' = Ok xs -> g_elements fuel m' g' = Ok xs) /\
    g_elements fuel m' g = Ok (filter (fun n => negb (f n)) (map n_id ns)).
Proof.
  intros HD Hf Hg gone.
  destruct (graph_removed fuel ops w g ns (GClearIf g f) gone HD Hf Hg) as (m & m' & A & B & C & D & E & F & G & H).
  { left. exists f. split; reflexivity. }
  exists m, m'. repeat (split; [assumption|]). exact (H f eq_refl).
Qed.

Theorem destroy_exact fuel ops w g ns :
  gdoes_all graphs0 ops w -> length ops < fuel -> gr_nodes w g = Some ns ->
  exists m m', run_gops fuel gmem0 ops = Ok m /\ g_destroy fuel m g = Ok m' /\
    (forall n, m_node m' n = if among ns n then None else m_node m n) /\
    (forall e x, m_edge m' e = Some x <->
       m_edge m e = Some x /\ among ns (e_src x) = false /\ among ns (e_tgt x) = false) /\
    (forall g' xs, g' <> g -> g_elements fuel m g' = Ok xs -> g_elements fuel m' g' = Ok xs).
Proof.
  intros HD Hf Hg.
  destruct (graph_removed fuel ops w g ns (GDestroy g) (among ns) HD Hf Hg) as (m & m' & A & B & C & D & E & F & G & H).
  { right. split; reflexivity. }
  exists m, m'. repeat (split; [assumption|]). assumption.
Qed.
