(** propagate_invalidation: which nodes end up invalidated, and what is reported. *)
From Coq Require Import Lia String.
From Verif Require Import Model.Common Model.TaskSet Model.Dag Model.Sched Model.Exec
     Spec.Graph Proofs.Sets Proofs.SchedFacts.
Open Scope nat_scope.
Open Scope list_scope.

(** The flags other than [invalidated]. *)
Definition flags (x : nstate) : bool * bool * bool := (ns_started x, ns_done x, ns_failed x).

Lemma set_inval_same st n v : ns_inval (set_inval st n v n) = v.
Proof. unfold set_inval. rewrite upd_same. reflexivity. Qed.

Lemma set_inval_other st n v x : x <> n -> set_inval st n v x = st x.
Proof. intros H. unfold set_inval. apply upd_other, H. Qed.

Lemma set_inval_flags st n v x : flags (set_inval st n v x) = flags (st x).
Proof.
  destruct (Nat.eq_dec x n) as [->|H].
  - unfold set_inval. rewrite upd_same. reflexivity.
  - rewrite set_inval_other by exact H. reflexivity.
Qed.

(** Asking a job, and what is reported when it answers. *)
Definition ans_event (ask : nid -> inval_answer) (n : nid) : list inval_event :=
  match ask n with
  | IvRet b log => [IvAsk n; IvJob n (if b then INVALID else VALID) log]
  | IvThrow => [IvAsk n]
  end.
Definition answers (hj : nid -> bool) (ask : nid -> inval_answer) (n : nid) : Prop :=
  hj n = true /\ ask n <> IvThrow.
Definition says_yes (ask : nid -> inval_answer) (n : nid) : Prop :=
  exists log, ask n = IvRet true log.

Definition pass_post hj ask ns st prop ev (r : pass_res) : Prop :=
  match r with
  | PassOk st' prop' ev' =>
      (forall n, In n ns -> answers hj ask n) /\
      ev' = ev ++ flat_map (ans_event ask) ns /\
      (sorted prop -> sorted prop') /\
      (forall x, In x prop' <-> In x prop \/ (In x ns /\ says_yes ask x)) /\
      (forall x, flags (st' x) = flags (st x)) /\
      (forall x, In x ns -> (ns_inval (st' x) = INVALID /\ says_yes ask x)
                            \/ (ns_inval (st' x) = VALID /\ ~ says_yes ask x)) /\
      (forall x, ~ In x ns -> st' x = st x)
  | PassNull n ev' => exists pre post, ns = pre ++ n :: post /\ hj n = false /\
      (forall x, In x pre -> answers hj ask x) /\ ev' = ev ++ flat_map (ans_event ask) pre
  | PassThrow n ev' => exists pre post, ns = pre ++ n :: post /\ hj n = true /\ ask n = IvThrow /\
      (forall x, In x pre -> answers hj ask x) /\ ev' = ev ++ flat_map (ans_event ask) pre ++ [IvAsk n]
  end.

Lemma inval_pass_spec hj ask : forall ns st prop ev,
  NoDup ns -> pass_post hj ask ns st prop ev (inval_pass hj ask ns st prop ev).
Proof.
  induction ns as [|n ns IH]; intros st prop ev Hnd; cbn [inval_pass].
  - cbn. rewrite app_nil_r. repeat split; tauto.
  - inversion Hnd as [|? ? Hn Hnd']; subst.
    destruct (hj n) eqn:Hj; cbn [negb].
    2:{ exists [], ns. cbn. rewrite app_nil_r. repeat split; auto; intros ? []. }
    destruct (ask n) as [b log|] eqn:Ha.
    2:{ exists [], ns. cbn. repeat split; auto; intros ? []. }
    set (v := if b then INVALID else VALID).
    set (prop' := if b then set_insert n prop else prop).
    specialize (IH (set_inval st n v) prop' (ev ++ [IvAsk n; IvJob n v log]) Hnd').
    destruct (inval_pass hj ask ns (set_inval st n v) prop' (ev ++ [IvAsk n; IvJob n v log]))
      as [st' prop'' ev'|m ev'|m ev']; cbn [pass_post] in *.
    + destruct IH as [H1 [-> [H3 [H4 [H5 [H6 H7]]]]]].
      assert (Hans : answers hj ask n) by (split; [exact Hj|congruence]).
      assert (Hyes : says_yes ask n <-> b = true).
      { unfold says_yes. rewrite Ha. split.
        - intros [l El]. congruence.
        - intros ->. eauto. }
      split; [|split; [|split; [|split; [|split; [|split]]]]].
      * intros x [->|Hx]; auto.
      * rewrite <- app_assoc. f_equal. cbn. unfold ans_event at 2. rewrite Ha. reflexivity.
      * intros Hs. apply H3. subst prop'. destruct b; [apply set_insert_sorted|]; exact Hs.
      * intros x. rewrite H4. subst prop'. split.
        -- intros [Hx|[Hx Hy]]; [|right; cbn; tauto].
           destruct b; [|left; exact Hx]. apply set_insert_In in Hx.
           destruct Hx as [->|Hx]; [right; cbn; tauto|left; exact Hx].
        -- intros [Hx|[[->|Hx] Hy]].
           ++ left. destruct b; [apply set_insert_In|]; tauto.
           ++ left. apply Hyes in Hy. subst b. apply set_insert_In. tauto.
           ++ right; tauto.
      * intros x. rewrite H5. apply set_inval_flags.
      * intros x [->|Hx]; [|apply H6, Hx].
        rewrite (H7 x Hn), set_inval_same. subst v.
        destruct b; [left; tauto|right]. split; [reflexivity|]. rewrite Hyes. discriminate.
      * intros x Hx. rewrite H7 by (intros Hi; apply Hx; right; exact Hi).
        apply set_inval_other. intros ->. apply Hx. left; reflexivity.
    + destruct IH as [pre [post [-> [H2 [H3 ->]]]]]. exists (n :: pre), post.
      split; [reflexivity|]. split; [exact H2|]. split.
      * intros x [->|Hx]; [split; [exact Hj|congruence]|auto].
      * rewrite <- app_assoc. f_equal. cbn. unfold ans_event at 2. rewrite Ha. reflexivity.
    + destruct IH as [pre [post [-> [H2 [H2' [H3 ->]]]]]]. exists (n :: pre), post.
      split; [reflexivity|]. split; [exact H2|]. split; [exact H2'|]. split.
      * intros x [->|Hx]; [split; [exact Hj|congruence]|auto].
      * rewrite <- app_assoc. f_equal. cbn. unfold ans_event at 2. rewrite Ha. reflexivity.
Qed.

(** * The worklist *)

Lemma split_app_cons {A} (l1 l2 a : list A) e b : l1 ++ l2 = a ++ e :: b ->
  (exists b', l1 = a ++ e :: b' /\ b = b' ++ l2) \/ (exists a', a = l1 ++ a' /\ l2 = a' ++ e :: b).
Proof.
  revert a. induction l1 as [|x l1 IH]; intros a H.
  - right. exists a. auto.
  - destruct a as [|y a]; cbn in H; inversion H; subst.
    + left. exists l1. auto.
    + destruct (IH a H2) as [[b' [-> ->]]|[a' [-> ->]]]; [left; exists b'|right; exists a']; auto.
Qed.

Definition fresh_edges (seen : list nid) (es : list edge) : list edge :=
  filter (fun e => negb (mem (e_src e) seen)) es.

Lemma fresh_edges_In seen es e : In e (fresh_edges seen es) <-> In e es /\ ~ In (e_src e) seen.
Proof. unfold fresh_edges. rewrite filter_In, negb_true_iff, mem_false. reflexivity. Qed.

Lemma prop_edges_spec seen : forall es st todo ev st' todo' ev',
  prop_edges es seen st todo ev = (st', todo', ev') ->
  (sorted todo -> sorted todo') /\
  (forall x, In x todo' <-> In x todo \/ exists e, In e (fresh_edges seen es) /\ e_src e = x) /\
  ev' = ev ++ map (fun e => IvDep (e_src e) (e_tgt e)) (fresh_edges seen es) /\
  (forall x, flags (st' x) = flags (st x)) /\
  (forall x, (exists e, In e (fresh_edges seen es) /\ e_src e = x) -> ns_inval (st' x) = INVALID) /\
  (forall x, (exists e, In e (fresh_edges seen es) /\ e_src e = x) \/ st' x = st x).
Proof.
  induction es as [|e es IH]; intros st todo ev st' todo' ev' H; cbn [prop_edges] in H.
  - inversion H; subst. cbn. rewrite app_nil_r.
    repeat split; auto; try tauto.
    + intros [Hx|[e [[] _]]]. exact Hx.
    + intros x [e [[] _]].
  - cbn [fresh_edges filter]. destruct (mem (e_src e) seen) eqn:Em; cbn [negb].
    + apply IH in H. exact H.
    + apply IH in H. destruct H as [H1 [H2 [-> [H4 [H5 H6]]]]].
      fold (fresh_edges seen es).
      split; [|split; [|split; [|split; [|split]]]].
      * intros Hs. apply H1, set_insert_sorted, Hs.
      * intros x. rewrite H2, set_insert_In. split.
        -- intros [[->|Hx]|[e' [He' <-]]].
           ++ right. exists e. split; [left; reflexivity|reflexivity].
           ++ left; exact Hx.
           ++ right. exists e'. split; [right; exact He'|reflexivity].
        -- intros [Hx|[e' [[<-|He'] <-]]]; [tauto|tauto|].
           right. exists e'. tauto.
      * rewrite <- app_assoc. reflexivity.
      * intros x. rewrite H4. apply set_inval_flags.
      * intros x [e' [[<-|He'] <-]].
        -- destruct (H6 (e_src e)) as [Hx| ->]; [apply H5, Hx|apply set_inval_same].
        -- apply H5. eauto.
      * intros x. destruct (H6 x) as [[e' [He' <-]]|Hx].
        -- left. exists e'. split; [right; exact He'|reflexivity].
        -- destruct (Nat.eq_dec x (e_src e)) as [->|Hne].
           ++ left. exists e. split; [left; reflexivity|reflexivity].
           ++ right. rewrite Hx. apply set_inval_other, Hne.
Qed.

(** how often [n] has been reported invalidated by [m] *)
Definition is_dep (n m : nid) (e : inval_event) : bool :=
  match e with IvDep a b => (a =? n) && (b =? m) | _ => false end.
Definition dep_count (n m : nid) (evd : list inval_event) : nat := List.length (filter (is_dep n m) evd).
Lemma dep_count_app n m a b : dep_count n m (a ++ b) = dep_count n m a + dep_count n m b.
Proof. unfold dep_count. rewrite filter_app, app_length. reflexivity. Qed.
Lemma dep_count_none n m evd : (forall e, In e evd -> is_dep n m e = false) -> dep_count n m evd = 0.
Proof.
  unfold dep_count. induction evd as [|e evd IH]; intros H; [reflexivity|]. cbn.
  rewrite (H e (or_introl eq_refl)). apply IH. intros x Hx. apply H. right; exact Hx.
Qed.
Lemma dep_count_new n m d p seen :
  dep_count n m (map (fun e => IvDep (e_src e) (e_tgt e))
     (fresh_edges seen (filter_edges INVALIDATED_BY (in_edges d p)))) <= inval_edges d n m.
Proof.
  unfold dep_count, inval_edges, fresh_edges, filter_edges, in_edges.
  induction (d_edges d) as [|e es IH]; [cbn; lia|].
  cbn [filter]. destruct (e_tgt e =? p); cbn [filter].
  - destruct (ekind_eqb (e_kind e) INVALIDATED_BY) eqn:Ek; cbn [filter].
    + destruct (negb (mem (e_src e) seen)); cbn [filter map is_dep];
        destruct ((e_src e =? n) && (e_tgt e =? m)); cbn [andb filter List.length]; lia.
    + rewrite andb_false_r. exact IH.
  - destruct ((e_src e =? n) && (e_tgt e =? m) && ekind_eqb (e_kind e) INVALIDATED_BY);
      cbn [List.length]; lia.
Qed.
(** what an event of the worklist says, given the ones before it *)
Definition dep_ok (c : config) (a : list inval_event) (e : inval_event) : Prop :=
  exists n m, e = IvDep n m /\ inval_by (c_dag c) n m /\
    ~ job_invalidated c n /\ Invalidated c n /\ Invalidated c m /\
    (job_invalidated c m \/ exists p, In (IvDep m p) a) /\
    S (dep_count n m a) <= inval_edges (c_dag c) n m.

Section Propagate.
  Variable c : config.
  Let d := c_dag c.
  Variable st0 : nid -> nstate.

  Record J (st : nid -> nstate) (todo seen : list nid) (evd : list inval_event) : Prop := {
    j_sorted : sorted todo;
    j_todo : forall x, In x todo -> ns_inval (st x) = INVALID;
    j_seen : forall x, In x seen -> ns_inval (st x) = INVALID;
    j_inval : forall x, In x (node_ids d) -> ns_inval (st x) = INVALID ->
        Invalidated c x /\ (In x todo \/ In x seen);
    j_ids : forall x, In x todo \/ In x seen -> In x (node_ids d);
    j_pre : forall x, In x seen -> ~ In x todo -> forall m, inval_by d m x -> ns_inval (st m) = INVALID;
    j_job : forall x, In x (node_ids d) -> job_invalidated c x -> In x seen;
    j_valid : forall x, In x (node_ids d) -> ns_inval (st x) = INVALID \/ ns_inval (st x) = VALID;
    j_flags : forall x, flags (st x) = flags (st0 x);
    j_ev : forall a e b, evd = a ++ e :: b -> dep_ok c a e;
    j_tgt : forall n m, In (IvDep n m) evd -> In m seen /\ ~ In m todo;
    j_evc : forall x, In x (node_ids d) -> ns_inval (st x) = INVALID ->
        job_invalidated c x \/ exists m, In (IvDep x m) evd }.

  Hypothesis Hw : wf_dag d.

  (** nodes the worklist is not through with *)
  Definition pending (todo seen : list nid) : nat :=
    List.length (filter (fun x => negb (mem x seen && negb (mem x todo))) (node_ids d)).

  Lemma prop_loop_spec : forall fuel st todo seen ev evd,
    J st todo seen evd -> pending todo seen <= fuel ->
    exists st' evd' seen',
      prop_loop fuel d st todo seen (ev ++ evd) = PropOk st' (ev ++ evd') /\ J st' [] seen' evd'.
  Proof.
    destruct Hw as [Hnd Hcl].
    induction fuel as [|f IH]; intros st todo seen ev evd HJ Hf.
    - assert (todo = []) as ->.
      { destruct todo as [|p todo]; [reflexivity|exfalso].
        assert (Hp : In p (node_ids d)) by (apply (j_ids _ _ _ _ HJ); left; left; reflexivity).
        unfold pending in Hf.
        assert (Hin : In p (filter (fun x => negb (mem x seen && negb (mem x (p :: todo)))) (node_ids d))).
        { apply filter_In. split; [exact Hp|]. apply negb_true_iff, andb_false_iff. right.
          apply negb_false_iff, mem_In. left; reflexivity. }
        destruct (filter _ _); [destruct Hin|cbn in Hf; lia]. }
      cbn. exists st, evd, seen. auto.
    - destruct todo as [|p todo].
      + cbn. exists st, evd, seen. auto.
      + cbn [prop_loop].
        rewrite (j_todo _ _ _ _ HJ p (or_introl eq_refl)). cbn [inval_eqb negb].
        destruct (prop_edges (filter_edges INVALIDATED_BY (in_edges d p)) (set_insert p seen) st todo
                    (ev ++ evd)) as [[st' todo'] ev'] eqn:E.
        apply prop_edges_spec in E. destruct E as [H1 [H2 [-> [H4 [H5 H6]]]]].
        set (new := fresh_edges (set_insert p seen) (filter_edges INVALIDATED_BY (in_edges d p))) in *.
        assert (Hnew : forall e, In e new -> In e (d_edges d) /\ e_tgt e = p /\
                  e_kind e = INVALIDATED_BY /\ e_src e <> p /\ ~ In (e_src e) seen).
        { intros e He. apply fresh_edges_In in He. destruct He as [He Hs].
          apply filter_in_In in He. destruct He as [He [Ht Hk]].
          repeat split; try assumption; intros Hx; apply Hs, set_insert_In; auto. }
        assert (Hnew' : forall e, In e new -> inval_by d (e_src e) p).
        { intros e He. destruct (Hnew e He) as [Hin [Ht [Hk _]]].
          unfold inval_by. destruct e as [a b k]; cbn in *. subst. exact Hin. }
        assert (Hp : In p (node_ids d)) by (apply (j_ids _ _ _ _ HJ); left; left; reflexivity).
        assert (HpI : Invalidated c p).
        { apply (j_inval _ _ _ _ HJ); [exact Hp|]. apply (j_todo _ _ _ _ HJ). left; reflexivity. }
        pose proof (j_sorted _ _ _ _ HJ) as Hsort. inversion Hsort as [|? ? Hlt Hsort']; subst.
        assert (Hpt : ~ In p todo) by (intros Hin; specialize (Hlt p Hin); lia).
        assert (HstI : forall x, ns_inval (st x) = INVALID -> ns_inval (st' x) = INVALID).
        { intros x Hx. destruct (H6 x) as [Hn| ->]; [apply H5, Hn|exact Hx]. }
        rewrite <- app_assoc.
        apply IH.
        * constructor.
          -- apply H1, Hsort'.
          -- intros x Hx. apply H2 in Hx. destruct Hx as [Hx|Hx]; [|apply H5, Hx].
             apply HstI, (j_todo _ _ _ _ HJ). right; exact Hx.
          -- intros x Hx. apply HstI. apply set_insert_In in Hx. destruct Hx as [->|Hx].
             ++ apply (j_todo _ _ _ _ HJ). left; reflexivity.
             ++ apply (j_seen _ _ _ _ HJ), Hx.
          -- intros x Hx HI. destruct (H6 x) as [[e [He <-]]|Est].
             ++ split.
                ** destruct HpI as [q [Hq Hj]]. exists q. split; [|exact Hj].
                   apply rt_trans with p; [apply rt_step, Hnew', He|exact Hq].
                ** left. apply H2. right. eauto.
             ++ rewrite Est in HI. destruct (j_inval _ _ _ _ HJ x Hx HI) as [HI' [[->|Hin]|Hin]].
                ** split; [exact HI'|]. right. apply set_insert_In. auto.
                ** split; [exact HI'|]. left. apply H2. auto.
                ** split; [exact HI'|]. right. apply set_insert_In. auto.
          -- intros x [Hx|Hx].
             ++ apply H2 in Hx. destruct Hx as [Hx|[e [He <-]]].
                ** apply (j_ids _ _ _ _ HJ). left; right; exact Hx.
                ** apply Hcl, Hnew, He.
             ++ apply set_insert_In in Hx. destruct Hx as [->|Hx]; [exact Hp|].
                apply (j_ids _ _ _ _ HJ). auto.
          -- intros x Hx Hnx m Hm. destruct (Nat.eq_dec x p) as [->|Hne].
             ++ (* the node just processed *)
                destruct (in_dec Nat.eq_dec m (set_insert p seen)) as [Hs|Hs].
                ** apply HstI. apply set_insert_In in Hs. destruct Hs as [->|Hs].
                   --- apply (j_todo _ _ _ _ HJ). left; reflexivity.
                   --- apply (j_seen _ _ _ _ HJ), Hs.
                ** apply H5. exists (Edge m p INVALIDATED_BY). split; [|reflexivity].
                   apply fresh_edges_In. split; [|exact Hs].
                   apply filter_in_In. cbn. auto.
             ++ apply HstI. apply set_insert_In in Hx. destruct Hx as [->|Hx]; [congruence|].
                apply (j_pre _ _ _ _ HJ) with (x := x); [exact Hx| |exact Hm].
                intros [->|Hin]; [congruence|]. apply Hnx, H2. auto.
          -- intros x Hx Hj. apply set_insert_In. right. apply (j_job _ _ _ _ HJ); assumption.
          -- intros x Hx. destruct (H6 x) as [Hn| ->]; [left; apply H5, Hn|].
             apply (j_valid _ _ _ _ HJ), Hx.
          -- intros x. rewrite H4. apply (j_flags _ _ _ _ HJ).
          -- intros a e b He.
             destruct (split_app_cons _ _ _ _ _ He) as [[b' [He' ->]]|[a' [-> He']]].
             ++ eapply (j_ev _ _ _ _ HJ), He'.
             ++ assert (Hin0 : In e (map (fun e0 => IvDep (e_src e0) (e_tgt e0)) new)).
                { rewrite He'. apply in_app_iff. right; left; reflexivity. }
                apply in_map_iff in Hin0. destruct Hin0 as [e' [<- Hin']].
                destruct (Hnew e' Hin') as [Hin [Ht [Hk [Hne Hns]]]].
                exists (e_src e'), p. rewrite Ht. split; [reflexivity|].
                split; [apply Hnew', Hin'|]. split; [|split; [|split; [exact HpI|split]]].
                ** intros Hj. apply Hns, (j_job _ _ _ _ HJ); [apply Hcl, Hin|exact Hj].
                ** destruct HpI as [q [Hq Hj]]. exists q. split; [|exact Hj].
                   apply rt_trans with p; [apply rt_step, Hnew', Hin'|exact Hq].
                ** destruct (j_evc _ _ _ _ HJ p Hp) as [Hj|[m Hm]].
                   --- apply (j_todo _ _ _ _ HJ). left; reflexivity.
                   --- left; exact Hj.
                   --- right. exists m. apply in_app_iff. left; exact Hm.
                ** rewrite dep_count_app.
                   assert (E0 : dep_count (e_src e') p evd = 0).
                   { apply dep_count_none. intros x Hx. destruct x as [| |a0 b0]; try reflexivity.
                     cbn. destruct (b0 =? p) eqn:Eb; [|apply andb_false_r]. apply Nat.eqb_eq in Eb. subst b0.
                     destruct (j_tgt _ _ _ _ HJ a0 p Hx) as [_ Hnt]. destruct Hnt. left; reflexivity. }
                   rewrite E0. pose proof (dep_count_new (e_src e') p d p (set_insert p seen)) as Hc.
                   fold new in Hc. rewrite He', dep_count_app in Hc. unfold dep_count at 2 in Hc.
                   cbn [filter is_dep] in Hc. rewrite Ht, !Nat.eqb_refl in Hc. cbn in Hc. fold d. lia.
          -- intros n m Hin. apply in_app_iff in Hin. destruct Hin as [Hin|Hin].
             ++ destruct (j_tgt _ _ _ _ HJ n m Hin) as [G1 G2]. split; [apply set_insert_In; auto|].
                intros G3. apply H2 in G3. destruct G3 as [G3|[e [He <-]]]; [apply G2; right; exact G3|].
                destruct (Hnew e He) as [_ [_ [_ [_ G4]]]]. exact (G4 G1).
             ++ apply in_map_iff in Hin. destruct Hin as [e [Ee He]].
                destruct (Hnew e He) as [_ [Et _]]. rewrite Et in Ee. injection Ee as _ Em. rewrite <- Em.
                split; [apply set_insert_In; auto|]. intros G3. apply H2 in G3. destruct G3 as [G3|[e2 [He2 E3]]]; [exact (Hpt G3)|].
                destruct (Hnew e2 He2) as [_ [_ [_ [G4 _]]]]. exact (G4 E3).
          -- intros x Hx HI. destruct (H6 x) as [[e [He <-]]|Est].
             ++ right. exists p. apply in_app_iff. right.
                apply in_map_iff. exists e. split; [|exact He].
                destruct (Hnew e He) as [_ [-> _]]. reflexivity.
             ++ rewrite Est in HI. destruct (j_evc _ _ _ _ HJ x Hx HI) as [Hj|[m Hm]]; [left; exact Hj|].
                right. exists m. apply in_app_iff. left; exact Hm.
        * enough (pending todo' (set_insert p seen) < pending (p :: todo) seen) by lia.
          apply filter_length_strict with (x := p).
          -- intros x _ Hx. apply negb_true_iff. apply negb_true_iff in Hx.
             apply andb_false_iff. apply andb_false_iff in Hx.
             destruct Hx as [Hx|Hx].
             ++ left. apply mem_false. apply mem_false in Hx. intros Hi. apply Hx, set_insert_In. auto.
             ++ apply negb_false_iff, mem_In, H2 in Hx. destruct Hx as [Hx|[e [He <-]]].
                ** right. apply negb_false_iff, mem_In. right; exact Hx.
                ** left. apply mem_false, Hnew, He.
          -- exact Hp.
          -- apply negb_false_iff, andb_true_iff. split.
             ++ apply mem_In, set_insert_In. auto.
             ++ apply negb_true_iff, mem_false. intros Hin. apply H2 in Hin.
                destruct Hin as [Hin|[e [He He2]]]; [auto|]. destruct (Hnew e He) as [_ [_ [_ [Hne _]]]]. auto.
          -- apply negb_true_iff, andb_false_iff. right. apply negb_false_iff, mem_In. left; reflexivity.
  Qed.

  Lemma J_final st seen evd :
    J st [] seen evd ->
    (forall n, In n (node_ids d) ->
       (ns_inval (st n) = INVALID /\ Invalidated c n) \/ (ns_inval (st n) = VALID /\ ~ Invalidated c n)).
  Proof.
    destruct Hw as [Hnd Hcl].
    intros HJ n Hn.
    assert (Hall : forall a b, clos_refl_trans_1n nid (inval_by d) a b -> In a (node_ids d) ->
              In b (node_ids d) -> ns_inval (st b) = INVALID -> ns_inval (st a) = INVALID).
    { intros a b H. induction H as [|a m b Ham Hmb IH]; intros Ha Hb HI; [exact HI|].
      assert (Hm : In m (node_ids d)) by (apply (Hcl _ Ham)).
      specialize (IH Hm Hb HI).
      apply (j_pre _ _ _ _ HJ) with (x := m); [|intros []|exact Ham].
      destruct (j_inval _ _ _ _ HJ m Hm IH) as [_ [[]|Hs]]. exact Hs. }
    destruct (j_valid _ _ _ _ HJ n Hn) as [HI|HV].
    - left. split; [exact HI|]. apply (j_inval _ _ _ _ HJ n Hn HI).
    - right. split; [exact HV|]. intros [m [Hm Hj]].
      assert (Hmi : In m (node_ids d)).
      { apply clos_rt_rtn1 in Hm. destruct Hm as [|y z Hy _]; [exact Hn|apply (Hcl _ Hy)]. }
      assert (ns_inval (st n) = INVALID); [|congruence].
      apply Hall with m; [apply clos_rt_rt1n, Hm|exact Hn|exact Hmi|].
      apply (j_seen _ _ _ _ HJ), (j_job _ _ _ _ HJ); assumption.
  Qed.
End Propagate.

(** Both passes together, as exec calls them. *)
Theorem propagate_spec c todo :
  wf_dag (c_dag c) ->
  NoDup todo -> (forall x, In x todo <-> In x (node_ids (c_dag c))) ->
  forall ns prop ev,
  inval_pass (node_has_job c) (c_inval c) todo (fun _ => nstate0) [] [] = PassOk ns prop ev ->
  (forall n, In n todo -> answers (node_has_job c) (c_inval c) n) /\
  ev = flat_map (ans_event (c_inval c)) todo /\
  exists ns' evd,
    prop_loop (fuel_of c) (c_dag c) ns prop prop ev = PropOk ns' (ev ++ evd) /\
    (forall n, flags (ns' n) = (false, false, false)) /\
    (forall n, In n (node_ids (c_dag c)) ->
       (ns_inval (ns' n) = INVALID /\ Invalidated c n) \/
       (ns_inval (ns' n) = VALID /\ ~ Invalidated c n)) /\
    (forall a e b, evd = a ++ e :: b -> dep_ok c a e) /\
    (forall n, In n (node_ids (c_dag c)) -> Invalidated c n -> ~ job_invalidated c n ->
        exists m, In (IvDep n m) evd).
Proof.
  intros Hw Hnd Hids ns prop ev E.
  assert (H : pass_post (node_has_job c) (c_inval c) todo (fun _ => nstate0) [] []
                        (PassOk ns prop ev)).
  { rewrite <- E. apply inval_pass_spec, Hnd. }
  cbn [pass_post] in H. destruct H as [H1 [H2 [H3 [H4 [H5 [H6 H7]]]]]].
  cbn [app] in H2. split; [exact H1|]. split; [exact H2|].
  assert (Hp : forall x, In x prop <-> In x (node_ids (c_dag c)) /\ job_invalidated c x).
  { intros x. rewrite H4, Hids. split; [intros [[]|H]; exact H|tauto]. }
  assert (HJ : J c (fun _ => nstate0) ns prop prop []).
  { constructor.
    - apply H3. constructor.
    - intros x Hx. apply Hp in Hx. destruct Hx as [Hx Hj]. apply Hids in Hx.
      destruct (H6 x Hx) as [[HI _]|[_ Hn]]; [exact HI|]. destruct (Hn Hj).
    - intros x Hx. apply Hp in Hx. destruct Hx as [Hx Hj]. apply Hids in Hx.
      destruct (H6 x Hx) as [[HI _]|[_ Hn]]; [exact HI|]. destruct (Hn Hj).
    - intros x Hx HI. destruct (H6 x (proj2 (Hids x) Hx)) as [[_ Hy]|[HV _]]; [|congruence].
      split.
      + exists x. split; [apply rt_refl|exact Hy].
      + left. apply Hp. auto.
    - intros x [Hx|Hx]; apply Hp in Hx; tauto.
    - tauto.
    - intros x Hx Hj. apply Hp. auto.
    - intros x Hx. destruct (H6 x (proj2 (Hids x) Hx)) as [[HI _]|[HV _]]; auto.
    - exact H5.
    - intros a e b H. destruct a; discriminate.
    - intros n m [].
    - intros x Hx HI. left. destruct (H6 x (proj2 (Hids x) Hx)) as [[_ Hy]|[HV _]]; [exact Hy|congruence]. }
  destruct (prop_loop_spec c (fun _ => nstate0) Hw (fuel_of c) ns prop prop ev [] HJ) as
      [ns' [evd [seen' [E2 HJ']]]].
  { unfold fuel_of, pending.
    pose proof (filter_length_le (fun x => negb (mem x prop && negb (mem x prop))) (node_ids (c_dag c))) as Hl.
    unfold node_ids at 2 in Hl. rewrite map_length in Hl. lia. }
  rewrite app_nil_r in E2. exists ns', evd. split; [exact E2|].
  split; [intros n; rewrite (j_flags _ _ _ _ _ _ HJ'); reflexivity|].
  pose proof (J_final c (fun _ => nstate0) Hw ns' seen' evd HJ') as Hfin.
  split; [exact Hfin|]. split.
  - exact (j_ev _ _ _ _ _ _ HJ').
  - intros n Hn HI Hj. destruct (Hfin n Hn) as [[Hn2 _]|[_ Hx]]; [|destruct (Hx HI)].
    destruct (j_evc _ _ _ _ _ _ HJ' n Hn Hn2) as [Hj'|Hm]; [destruct (Hj Hj')|exact Hm].
Qed.
