(** Ownership of executions. *)
From Coq Require Import Lia.
From Verif Require Import Model.Common Model.Heap Model.Coro Spec.Owner Proofs.HeapFacts.
Open Scope nat_scope.
Open Scope list_scope.

Record cinv (m : cmem) (os xs : list nat) : Prop := CInv {
  ci_obj : forall o, ob m o <> None <-> In o os;
  ci_one : forall o o' x, owns m o x -> owns m o' x -> o = o';
  ci_own : forall o x, owns m o x -> fr m x = true;
  ci_fr : forall x, fr m x = true <-> In x xs /\ ~ In x (freed m);
  ci_nd : NoDup (freed m);
  ci_made : forall x, In x (freed m) -> In x xs;
  ci_left : forall x, fr m x = true -> exists o, owns m o x }.

Lemma in_drop o x os : In x (drop o os) <-> In x os /\ x <> o.
Proof. unfold drop. rewrite filter_In, Bool.negb_true_iff, Nat.eqb_neq. reflexivity. Qed.

Lemma swap_inv m os xs o o' : cinv m os xs -> In o os -> In o' os ->
  exists m', swap_h m o o' = Ok m' /\ cinv m' os xs.
Proof.
  intros [a b c d e f g] Ho Ho'. unfold swap_h.
  destruct (ob m o) as [h|] eqn:E1; [|exfalso; apply (proj2 (a o) Ho E1)].
  destruct (ob m o') as [h'|] eqn:E2; [|exfalso; apply (proj2 (a o') Ho' E2)].
  eexists. split; [reflexivity|].
  assert (SW : forall q x, owns (CMem (put (put (ob m) o (Some h')) o' (Some h)) (fr m) (freed m)) q x <->
                (q = o' /\ h = Some x) \/ (q = o /\ q <> o' /\ h' = Some x) \/ (q <> o /\ q <> o' /\ owns m q x)).
  { intros q x. unfold owns. cbn [ob]. unfold put.
    destruct (Nat.eqb_spec q o') as [->|N']; [|destruct (Nat.eqb_spec q o) as [->|N]].
    - split; [intros X; left; split; congruence|].
      intros [[_ X]|[(_ & X & _)|(_ & X & _)]]; [rewrite X; reflexivity|congruence|congruence].
    - split; [intros X; right; left; repeat split; congruence|].
      intros [[X _]|[(_ & _ & X)|(X & _)]]; [congruence|rewrite X; reflexivity|congruence].
    - split; [auto|]. intros [[X _]|[(X & _)|(_ & _ & X)]]; [congruence|congruence|exact X]. }
  assert (SW' : forall q x, owns (CMem (put (put (ob m) o (Some h')) o' (Some h)) (fr m) (freed m)) q x ->
                exists p, owns m p x /\ ((q = o' /\ p = o) \/ (q = o /\ q <> o' /\ p = o') \/ (q <> o /\ q <> o' /\ p = q))).
  { intros q x H. apply SW in H. destruct H as [[-> ->]|[(-> & N & ->)|(N & N' & H)]].
    - exists o. unfold owns. auto.
    - exists o'. unfold owns. auto 10.
    - exists q. auto 10. }
  constructor; cbn [ob fr freed].
  - intros q. unfold put. destruct (Nat.eqb_spec q o') as [->|]; [split; [auto|discriminate]|].
    destruct (Nat.eqb_spec q o) as [->|]; [split; [auto|discriminate]|]. apply a.
  - intros q q' x H H'. apply SW' in H. apply SW' in H'. destruct H as (p & P1 & P2). destruct H' as (p' & P1' & P2').
    assert (p = p') by exact (b p p' x P1 P1').
    destruct P2 as [[-> ->]|[(-> & ? & ->)|(? & ? & ->)]];
      destruct P2' as [[-> ->]|[(-> & ? & ->)|(? & ? & ->)]]; congruence.
  - intros q x H. apply SW' in H. destruct H as (p & H & _). exact (c p x H).
  - exact d.
  - exact e.
  - exact f.
  - intros x H. destruct (g x H) as (q & Hq). destruct (Nat.eq_dec q o) as [->|N].
    + exists o'. apply SW. left. split; [reflexivity|]. unfold owns in Hq. congruence.
    + destruct (Nat.eq_dec q o') as [->|N'].
      * exists o. apply SW. right. left. split; [reflexivity|]. split; [congruence|]. unfold owns in Hq. congruence.
      * exists q. apply SW. auto.
Qed.

Lemma cop_inv m os xs op : cinv m os xs -> allowed_step os op ->
  (forall o x, op = CStart o x -> ~ In x xs) ->
  exists m', run_cop m op = Ok m' /\
    cinv m' (objects_step os op) (match op with CStart _ x => x :: xs | _ => xs end).
Proof.
  intros I HA HF. destruct op as [o x|o o'|o o'|o]; cbn [run_cop objects_step allowed_step] in *.
  - specialize (HF o x eq_refl). destruct I as [a b c d e f g]. unfold c_start.
    assert (E1 : ob m o = None) by (destruct (ob m o) eqn:E; [exfalso; apply HA, a; congruence|reflexivity]).
    assert (E2 : fr m x = false).
    { destruct (fr m x) eqn:E; [|reflexivity]. apply d in E. exfalso. exact (HF (proj1 E)). }
    rewrite E1, E2. eexists. split; [reflexivity|].
    assert (SW : forall q y, owns (CMem (put (ob m) o (Some (Some x))) (fun y => (y =? x) || fr m y) (freed m)) q y <->
                  (q = o /\ y = x) \/ (q <> o /\ owns m q y)).
    { intros q y. unfold owns. cbn [ob]. unfold put. destruct (Nat.eqb_spec q o) as [->|N].
      - split; [intros X; left; split; congruence|]. intros [[_ ->]|[X _]]; [reflexivity|congruence].
      - split; [auto|]. intros [[X _]|[_ X]]; [congruence|exact X]. }
    assert (NX : forall q, ~ owns m q x) by (intros q Hq; apply c in Hq; congruence).
    constructor; cbn [ob fr freed].
    + intros q. unfold put. cbn [In]. destruct (Nat.eqb_spec q o) as [->|N]; [split; [auto|discriminate]|].
      rewrite a. split; [auto|]. intros [X|X]; [congruence|exact X].
    + intros q q' y H H'. apply SW in H. apply SW in H'.
      destruct H as [[-> ->]|[N H]]; destruct H' as [[-> Ey]|[N' H']].
      * reflexivity.
      * exfalso. exact (NX q' H').
      * subst y. exfalso. exact (NX q H).
      * exact (b q q' y H H').
    + intros q y H. apply SW in H. destruct H as [[-> ->]|[_ H]]; [rewrite Nat.eqb_refl; reflexivity|].
      rewrite (c q y H). apply Bool.orb_true_r.
    + intros y. rewrite Bool.orb_true_iff, Nat.eqb_eq, d. cbn [In]. split.
      * intros [->|[X Y]]; [|auto]. split; [auto|]. intros X. exact (HF (f x X)).
      * intros [[X|X] Y]; [left; congruence|right; auto].
    + exact e.
    + intros y H. right. exact (f y H).
    + intros y H. apply Bool.orb_true_iff in H. destruct H as [H|H].
      * apply Nat.eqb_eq in H. exists o. apply SW. auto.
      * destruct (g y H) as (q & Hq). exists q. apply SW. right. split; [|exact Hq].
        intros ->. unfold owns in Hq. congruence.
  - destruct HA as [HA HA']. unfold c_move_new.
    assert (E1 : ob m o = None).
    { destruct I as [a b c d e f g]. destruct (ob m o) eqn:E; [exfalso; apply HA, a; congruence|reflexivity]. }
    rewrite E1. apply swap_inv; [|left; reflexivity|right; exact HA'].
    destruct I as [a b c d e f g].
    assert (SW : forall q y, owns (CMem (put (ob m) o (Some None)) (fr m) (freed m)) q y <-> owns m q y).
    { intros q y. unfold owns. cbn [ob]. unfold put. destruct (Nat.eqb_spec q o) as [->|N]; [|reflexivity].
      rewrite E1. split; discriminate. }
    constructor; cbn [ob fr freed]; try assumption.
    + intros q. unfold put. cbn [In]. destruct (Nat.eqb_spec q o) as [->|N]; [split; [auto|discriminate]|].
      rewrite a. split; [auto|]. intros [X|X]; [congruence|exact X].
    + intros q q' y H H'. apply SW in H. apply SW in H'. exact (b q q' y H H').
    + intros q y H. apply SW in H. exact (c q y H).
    + intros y H. destruct (g y H) as (q & Hq). exists q. apply SW. exact Hq.
  - exact (swap_inv m os xs o o' I (proj1 HA) (proj2 HA)).
  - destruct I as [a b c d e f g]. unfold c_destroy.
    destruct (ob m o) as [[x|]|] eqn:E1; [| |exfalso; apply (proj2 (a o) HA E1)].
    + assert (F := c o x E1). rewrite F. eexists. split; [reflexivity|].
      assert (SW : forall q y, owns (CMem (put (ob m) o None) (fun y => negb (y =? x) && fr m y) (x :: freed m)) q y <->
                    q <> o /\ owns m q y).
      { intros q y. unfold owns. cbn [ob]. unfold put. destruct (Nat.eqb_spec q o) as [->|N].
        - split; [discriminate|]. intros [X _]. congruence.
        - tauto. }
      constructor; cbn [ob fr freed].
      * intros q. rewrite in_drop. unfold put. destruct (Nat.eqb_spec q o) as [->|N].
        { split; [intros X; exfalso; apply X; reflexivity|tauto]. }
        rewrite a. tauto.
      * intros q q' y H H'. apply SW in H. apply SW in H'. exact (b q q' y (proj2 H) (proj2 H')).
      * intros q y H. apply SW in H. destruct H as [N H]. rewrite (c q y H).
        destruct (Nat.eqb_spec y x) as [->|]; [|reflexivity]. exfalso. apply N. exact (b q o x H E1).
      * intros y. rewrite Bool.andb_true_iff, Bool.negb_true_iff, Nat.eqb_neq, d. cbn [In]. split.
        { intros (N & X & Y). split; [exact X|]. intros [Z|Z]; [congruence|contradiction]. }
        intros (X & Y). split; [intros ->; apply Y; auto|]. split; [exact X|]. intros Z. apply Y. auto.
      * constructor; [|exact e]. apply d in F. exact (proj2 F).
      * intros y [<-|H]; [|exact (f y H)]. apply d in F. exact (proj1 F).
      * intros y H. apply Bool.andb_true_iff in H. destruct H as [N H]. apply Bool.negb_true_iff, Nat.eqb_neq in N.
        destruct (g y H) as (q & Hq). exists q. apply SW. split; [|exact Hq]. intros ->. unfold owns in Hq. congruence.
    + eexists. split; [reflexivity|].
      assert (SW : forall q y, owns (CMem (put (ob m) o None) (fr m) (freed m)) q y <-> owns m q y).
      { intros q y. unfold owns. cbn [ob]. unfold put. destruct (Nat.eqb_spec q o) as [->|N]; [|reflexivity].
        rewrite E1. split; discriminate. }
      constructor; cbn [ob fr freed]; try assumption.
      * intros q. rewrite in_drop. unfold put. destruct (Nat.eqb_spec q o) as [->|N].
        { split; [intros X; exfalso; apply X; reflexivity|tauto]. }
        rewrite a. tauto.
      * intros q q' y H H'. apply SW in H. apply SW in H'. exact (b q q' y H H').
      * intros q y H. apply SW in H. exact (c q y H).
      * intros y H. destruct (g y H) as (q & Hq). exists q. apply SW. exact Hq.
Qed.

Lemma run_cops_inv : forall ops m os xs, cinv m os xs -> allowed_from os ops ->
  NoDup (started ops) -> (forall x, In x (started ops) -> ~ In x xs) ->
  exists m' xs', run_cops m ops = Ok m' /\ cinv m' (fold_left objects_step ops os) xs' /\
    forall x, In x xs' <-> In x xs \/ In x (started ops).
Proof.
  induction ops as [|op r IH]; intros m os xs I HA ND HF.
  - exists m, xs. split; [reflexivity|]. split; [exact I|]. intros x. cbn. tauto.
  - destruct HA as [HA HA'].
    assert (NDr : NoDup (started r)).
    { destruct op; cbn in ND; [inversion ND|..]; assumption. }
    destruct (cop_inv m os xs op I HA) as (m1 & E1 & I1).
    { intros o x ->. apply HF. left. reflexivity. }
    destruct (IH m1 _ _ I1 HA' NDr) as (m2 & xs2 & E2 & I2 & HX).
    { intros x Hx. destruct op as [o y|o o'|o o'|o]; try (apply HF; exact Hx).
      cbn in ND. inversion ND as [|? ? N1 N2]; subst. intros [->|X]; [contradiction|].
      exact (HF x (or_intror Hx) X). }
    exists m2, xs2. cbn [run_cops fold_left]. rewrite E1. split; [exact E2|]. split; [exact I2|].
    intros x. rewrite HX. destruct op; cbn; tauto.
Qed.

Theorem ownership ops : allowed ops ->
  exists m, run_cops cmem0 ops = Ok m /\
    (forall o, ob m o <> None <-> In o (objects ops)) /\
    NoDup (freed m) /\
    (forall x, In x (freed m) -> In x (started ops)) /\
    (forall o x, owns m o x -> In x (started ops)) /\
    (forall x, In x (started ops) ->
       (In x (freed m) /\ forall o, ~ owns m o x) \/
       (~ In x (freed m) /\ exists o, owns m o x /\ forall o', owns m o' x -> o' = o)).
Proof.
  intros [HA ND].
  destruct (run_cops_inv ops cmem0 [] []) as (m & xs & E & I & HX).
  - constructor; cbn; try (intros; tauto).
    + intros o o' x H. discriminate H.
    + intros o x H. discriminate H.
    + intros x. split; [discriminate|intros [[] _]].
    + constructor.
    + intros x H. discriminate H.
  - exact HA.
  - exact ND.
  - intros x _ [].
  - exists m. split; [exact E|]. destruct I as [a b c d e f g].
    assert (HX' : forall x, In x xs <-> In x (started ops)) by (intros x; rewrite HX; cbn; tauto).
    split; [exact a|]. split; [exact e|]. split; [intros x H; apply HX', f, H|].
    split; [intros o x H; apply HX'; apply c in H; apply d in H; exact (proj1 H)|].
    intros x Hx. destruct (in_dec Nat.eq_dec x (freed m)) as [Hf|Hf].
    + left. split; [exact Hf|]. intros o Ho. apply c in Ho. apply d in Ho. exact (proj2 Ho Hf).
    + right. split; [exact Hf|]. destruct (g x) as (o & Ho); [apply d; split; [apply HX'; exact Hx|exact Hf]|].
      exists o. split; [exact Ho|]. intros o' Ho'. exact (b o' o x Ho' Ho).
Qed.

Theorem all_destroyed ops m : allowed ops -> objects ops = [] -> run_cops cmem0 ops = Ok m ->
  NoDup (freed m) /\ forall x, In x (freed m) <-> In x (started ops).
Proof.
  intros HA HO E. destruct (ownership ops HA) as (m' & E' & a & b & c & _ & e).
  rewrite E in E'. injection E' as <-. split; [exact b|]. intros x. split; [apply c|].
  intros Hx. destruct (e x Hx) as [[H _]|(_ & o & Ho & _)]; [exact H|]. exfalso.
  assert (X : In o (objects ops)) by (apply a; unfold owns in Ho; congruence). rewrite HO in X. destruct X.
Qed.

(** What done(), result() and tick() do with each object. *)
Lemma queries ops m o : allowed ops -> run_cops cmem0 ops = Ok m ->
  (forall x, owns m o x -> c_done m o = Ok x /\ c_result m o = Ok (Some x) /\ c_tick m o = Ok (Some x)) /\
  (In o (objects ops) -> (forall x, ~ owns m o x) ->
     c_done m o = Undef /\ c_result m o = Ok None /\ c_tick m o = Ok None) /\
  (~ In o (objects ops) -> c_done m o = Undef /\ c_result m o = Undef /\ c_tick m o = Undef).
Proof.
  intros [HA ND] E.
  destruct (run_cops_inv ops cmem0 [] []) as (m' & xs & E' & I & _).
  - constructor; cbn; try (intros; tauto).
    + intros a b x H. discriminate H.
    + intros a x H. discriminate H.
    + intros x. split; [discriminate|intros [[] _]].
    + constructor.
    + intros x H. discriminate H.
  - exact HA.
  - exact ND.
  - intros x _ [].
  - rewrite E in E'. inversion E'. subst m'. destruct I as [a _ c _ _ _ _]. unfold objects.
    unfold c_tick, c_done, c_result. split; [|split].
    + intros x H. pose proof (c o x H) as Hf. unfold owns in H. rewrite H, Hf. auto.
    + intros Hi Hn. apply a in Hi. destruct (ob m o) as [[x|]|] eqn:Eo; [destruct (Hn x Eo)|auto|congruence].
    + intros Hi. destruct (ob m o) eqn:Eo; [|auto]. exfalso. apply Hi, a. congruence.
Qed.
