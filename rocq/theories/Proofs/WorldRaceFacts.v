(** Executions one after the other (C96). *)
From Coq Require Import Lia String Relation_Operators.
From Verif Require Import Model.Common Model.Records Model.Jobs Model.TaskSet Model.Dag
     Model.Sched Model.Exec Model.World Spec.Graph Spec.Trace Spec.World Spec.Races Spec.WorldRaces
     Proofs.Sets Proofs.TraceFacts Proofs.ExecInv Proofs.ExecStep
     Proofs.ExecCtl Proofs.LogFacts Proofs.ExecProps Proofs.ExecProps2 Proofs.ExecProps3
     Proofs.StepCases Proofs.Ticks Proofs.Threads Proofs.WorldFacts Proofs.RaceFacts.
Open Scope nat_scope.
Open Scope list_scope.

(** A property that changes between two moments changes in one step. *)
Lemma turns (P : nat -> Prop) (dec : forall k, P k \/ ~ P k) a d : P a -> ~ P (a + d) ->
  exists k, a <= k < a + d /\ P k /\ ~ P (S k).
Proof.
  intros Ha. induction d as [|d IH]; intros Hn; [rewrite Nat.add_0_r in Hn; contradiction|].
  destruct (dec (a + d)) as [H|H].
  - exists (a + d). split; [lia|]. split; [exact H|]. replace (S (a + d)) with (a + S d) by lia. exact Hn.
  - destruct (IH H) as (k & Hk & H1 & H2). exists k. split; [lia|auto].
Qed.

Lemma frames_live s : frames s = map co_node (live s).
Proof. unfold frames, live. destruct (s_pc s); reflexivity. Qed.

Lemma rest_no_frames c z s : wf_dag (c_dag c) -> reachable c z s -> not_in_progress s -> frames s = [].
Proof.
  intros Hwf HR H. pose proof (r_inv c z s Hwf HR) as HI. pose proof (i_pc _ _ HI) as P. unfold pc_inv in P.
  unfold frames. destruct H as [H|[H|H]].
  - rewrite H in *. destruct P as (_ & _ & _ & -> & _). reflexivity.
  - unfold done in H. destruct (s_pc s); try discriminate; destruct P as [-> _]; reflexivity.
  - assert (Hd : s_pc s = Destroyed) by (apply (i_destr _ _ HI); apply in_rev; exact H).
    rewrite Hd in *. destruct P as [-> _]. reflexivity.
Qed.

Lemma env_frames c s l s' : env_label l = true -> step c s l = Some s' -> frames s' = frames s.
Proof.
  intros Hl E. destruct l; try discriminate; cbn in E.
  - destruct (s_fut s n); inversion E; reflexivity.
  - destruct (s_fut s n); inversion E; reflexivity.
  - inversion E; reflexivity.
Qed.

Lemma nth_split {A} (ls : list A) : forall p a, nth_error ls p = Some a ->
  firstn (S p) ls = firstn p ls ++ [a] /\ ls = firstn p ls ++ a :: skipn (S p) ls.
Proof.
  induction ls as [|b l IH]; intros [|p] a H; cbn in H; try discriminate.
  - inversion H. subst. auto.
  - destruct (IH p a H) as [E1 E2]. split.
    + change (firstn (S (S p)) (b :: l)) with (b :: firstn (S p) l). rewrite E1. reflexivity.
    + change (b :: l = b :: (firstn p l ++ a :: skipn (S p) l)). now rewrite <- E2.
Qed.

Section History.
Variable cs : nat -> config.
Hypothesis Hwf : forall i, wf_dag (c_dag (cs i)).
Variables (home : nat -> world_thread) (z : Z) (ls : list (nat * label)) (wend : world).
Hypothesis Hrun : run_world cs (world_init z) ls = Some wend.

Definition st (p : nat) : world :=
  match run_world cs (world_init z) (firstn p ls) with Some w => w | None => wend end.

Lemma st_at p : world_at cs z ls p (st p).
Proof.
  unfold world_at, st. pose proof Hrun as H. rewrite <- (firstn_skipn p ls), run_world_app in H.
  destruct (run_world cs (world_init z) (firstn p ls)); [reflexivity|discriminate].
Qed.
Lemma at_st p w : world_at cs z ls p w -> w = st p.
Proof. pose proof (st_at p) as H. unfold world_at in *. congruence. Qed.
Lemma st_reach p i : reachable (cs i) z (st p i).
Proof. exact (proj2 (world_alone cs z _ _ i (st_at p))). Qed.
Lemma st_inv p i : Inv (cs i) (st p i).
Proof. exact (r_inv _ z _ (Hwf i) (st_reach p i)). Qed.

Lemma st_step p i l : nth_error ls p = Some (i, l) ->
  step (cs i) (st p i) l = Some (st (S p) i) /\ forall j, j <> i -> st (S p) j = st p j.
Proof.
  intros H. destruct (nth_split ls p _ H) as [E _]. pose proof (st_at (S p)) as H1. unfold world_at in H1.
  rewrite E, run_world_app in H1. rewrite (st_at p) in H1. cbn in H1. unfold world_step in H1. cbn [fst snd] in H1.
  destruct (step (cs i) (st p i) l) as [s|]; [|discriminate]. inversion H1 as [H2]. split.
  - unfold upd. now rewrite Nat.eqb_refl.
  - intros j Hj. unfold upd. now rewrite (proj2 (Nat.eqb_neq j i)) by auto.
Qed.

Lemma st_none p : nth_error ls p = None -> st (S p) = st p.
Proof.
  intros H. apply nth_error_None in H. unfold st. rewrite !firstn_all2 by lia. reflexivity.
Qed.

(** A change of the state of [i] is made by a step of [i]. *)
Lemma changed p i : st (S p) i <> st p i -> exists l, nth_error ls p = Some (i, l) /\ step (cs i) (st p i) l = Some (st (S p) i).
Proof.
  intros H. destruct (nth_error ls p) as [[j l]|] eqn:E.
  - destruct (st_step p j l E) as [H1 H2]. destruct (Nat.eq_dec i j) as [->|Hn]; [eauto|]. destruct (H (H2 i Hn)).
  - rewrite (st_none p E) in H. congruence.
Qed.

Notation hb := (world_before cs z ls home).
Definition client (i p : nat) : Prop := exists a, nth_error ls p = Some a /\ step_thread cs home a = Some (home i).

Lemma hb_clients i p q : p < q -> client i p -> client i q -> hb p q.
Proof. intros Hl (a & Ha & Ta) (b & Hb & Tb). apply t_step. split; [exact Hl|]. left. eauto 10. Qed.

Lemma not_env_client p i l : nth_error ls p = Some (i, l) -> env_label l = false -> client i p.
Proof. intros H E. exists (i, l). split; [exact H|]. unfold step_thread. cbn. destruct l; try discriminate; reflexivity. Qed.

(** ** After a job the client goes on *)

(** A job that has ended: its future is dealt with before [i] is at rest. *)
Lemma end_then p i n o q : nth_error ls p = Some (i, LEnd n o) -> p < q -> not_in_progress (st q i) ->
  exists k, p < k < q /\ client i k /\ hb p k.
Proof.
  intros H Hl Hr. destruct (st_step p i _ H) as [E _].
  assert (Hin : In n (frames (st (S p) i))).
  { rewrite (env_frames _ _ (LEnd n o) _ eq_refl E), frames_live. pose proof (st_inv p i) as HI.
    assert (U : unfin (s_fut (st p i) n)) by (cbn in E; destruct (s_fut (st p i) n); try discriminate; exact I).
    destruct (k_unfin _ _ _ _ (i_core _ _ HI) n U) as [rec W]. apply in_map_iff. exists (Coro n (CWait rec)). auto. }
  assert (Hout : ~ In n (frames (st q i))) by (rewrite (rest_no_frames _ z _ (Hwf i) (st_reach q i) Hr); auto).
  destruct (turns (fun k => In n (frames (st k i)))) with (a := S p) (d := q - S p) as (k & Hk & H1 & H2).
  - intros k. destruct (in_dec Nat.eq_dec n (frames (st k i))); auto.
  - exact Hin.
  - replace (S p + (q - S p)) with q by lia. exact Hout.
  - exists k. split; [lia|]. destruct (changed k i) as (l & Hn & Es); [congruence|].
    assert (El : env_label l = false).
    { destruct (env_label l) eqn:El; [|reflexivity]. rewrite (env_frames _ _ _ _ El Es) in H2. contradiction. }
    split; [eapply not_env_client; eassumption|]. apply t_step. split; [lia|]. right. exists i, n. right. right.
    exists o, l, (st k), (st (S k)). auto 10 using st_at.
Qed.

Lemma begin_then p i n q : nth_error ls p = Some (i, LBegin n) -> p < q -> not_in_progress (st q i) ->
  exists k, p < k < q /\ client i k /\ hb p k.
Proof.
  intros H Hl Hr. destruct (st_step p i _ H) as [E _].
  assert (F : s_fut (st (S p) i) n = FRunning).
  { cbn in E. destruct (s_fut (st p i) n); try discriminate. inversion E as [E']. cbn. unfold upd. now rewrite Nat.eqb_refl. }
  assert (Hout : s_fut (st q i) n <> FRunning).
  { intros X. apply (rest_not_busy _ (Hwf i) z _ (st_reach q i) Hr). right. exists n. rewrite X. exact I. }
  destruct (turns (fun k => s_fut (st k i) n = FRunning)) with (a := S p) (d := q - S p) as (k & Hk & H1 & H2).
  - intros k. destruct (s_fut (st k i) n); (left; reflexivity) || (right; discriminate).
  - exact F.
  - replace (S p + (q - S p)) with q by lia. exact Hout.
  - destruct (changed k i) as (l & Hn & Es); [congruence|].
    destruct (fut_step _ _ _ _ n (Hwf i) (st_inv k i) Es) as [X|[[X _]|[(o & X & -> & _)|(_ & X & _)]]]; try congruence.
    destruct (end_then k i n o q Hn) as (k' & Hk' & C & B); [lia|exact Hr|]. exists k'. split; [lia|]. split; [exact C|].
    eapply t_trans; [|exact B]. apply t_step. split; [lia|]. left.
    exists (i, LBegin n), (i, LEnd n o), (job_thread cs home i n). auto.
Qed.

(** ** Before a job the client was there *)
Lemma tick_between j a : ~ busy (st a j) -> forall d, busy (st (a + d) j) ->
  exists t l, a <= t < a + d /\ nth_error ls t = Some (j, l) /\ tick_label (st t j) l.
Proof.
  intros Ha. induction d as [|d IH]; intros Hb; [rewrite Nat.add_0_r in Hb; contradiction|].
  replace (a + S d) with (S (a + d)) in Hb by lia.
  destruct (nth_error ls (a + d)) as [[i l]|] eqn:E.
  - destruct (st_step (a + d) i l E) as [Es Eo]. destruct (Nat.eq_dec j i) as [->|Hn].
    + destruct (busy_step _ (Hwf i) z _ _ _ (st_reach _ _) Es Hb) as [Hb'|Ht].
      * destruct (IH Hb') as (t & l' & Ht & X). exists t, l'. split; [lia|exact X].
      * exists (a + d), l. split; [lia|auto].
    + rewrite (Eo j Hn) in Hb. destruct (IH Hb) as (t & l' & Ht & X). exists t, l'. split; [lia|exact X].
  - rewrite (st_none _ E) in Hb. destruct (IH Hb) as (t & l' & Ht & X). exists t, l'. split; [lia|exact X].
Qed.

Lemma tick_client t j l : nth_error ls t = Some (j, l) -> tick_label (st t j) l -> client j t.
Proof.
  intros H Ht. apply (not_env_client t j l H). destruct Ht as [->|[[k ->] _]]; reflexivity.
Qed.

Lemma launch_between j n a d : ~ busy (st a j) -> unfin (s_fut (st (a + d) j) n) ->
  exists t l k, a <= t <= k /\ k < a + d /\ nth_error ls t = Some (j, l) /\ tick_label (st t j) l /\
    client j k /\ happens cs z ls k j (ELaunch n) /\ s_fut (st (S k) j) n <> FRunning.
Proof.
  intros Ha Hb.
  destruct (turns (fun k => ~ unfin (s_fut (st k j) n))) with (a := a) (d := d) as (k & Hk & H1 & H2).
  - intros k. destruct (s_fut (st k j) n); cbn; tauto.
  - intros U. apply Ha. right. eauto.
  - tauto.
  - assert (U : unfin (s_fut (st (S k) j) n)) by (destruct (s_fut (st (S k) j) n); cbn in *; tauto).
    destruct (tick_between j a Ha (S k - a)) as (t & l & Ht & Hn & Htl).
    { replace (a + (S k - a)) with (S k) by lia. right. eauto. }
    exists t, l, k. split; [lia|]. split; [lia|]. split; [exact Hn|]. split; [exact Htl|].
    destruct (changed k j) as (l' & Hn' & Es); [congruence|].
    pose proof (st_inv k j) as HI. pose proof (st_inv (S k) j) as HI'.
    destruct (fut_step _ _ _ _ n (Hwf j) HI Es) as [X|[[X [[_ Y]|[_ Y]]]|[(o & X & _)|(X & Y & ->)]]].
    + rewrite X in U. contradiction.
    + rewrite Y in H1. exfalso. now apply H1.
    + rewrite Y in H1. exfalso. now apply H1.
    + rewrite X in U. destruct U.
    + split; [eapply not_env_client; [exact Hn'|reflexivity]|].
      destruct (step_log _ _ _ _ (Hwf j) HI Es) as [new El].
      split; [|intros Z; rewrite Z in X; discriminate].
      exists LCtl, (st k), (st (S k)), (rev new). split; [exact Hn'|]. split; [apply st_at|]. split; [apply st_at|].
      split; [unfold trace; rewrite El; apply rev_app_distr|]. apply in_rev. rewrite rev_involutive.
      pose proof (k_fut _ _ _ _ (i_core _ _ HI) n) as L0. pose proof (k_fut _ _ _ _ (i_core _ _ HI') n) as L1.
      rewrite Y in L0. cbn in L0. destruct L0 as [L0 _].
      assert (L : In (ELaunch n) (s_log (st (S k) j))).
      { destruct (s_fut (st (S k) j) n); cbn in U; try destruct U; apply L1. }
      rewrite El in L. apply in_app_iff in L. destruct L as [L|L]; [exact L|contradiction].
Qed.

(** What a step of [j] that does something follows. *)
Lemma before_step j q l a : nth_error ls q = Some (j, l) -> a <= q -> ~ busy (st a j) -> busy (st q j) \/ tick_label (st q j) l ->
  exists t l', a <= t <= q /\ nth_error ls t = Some (j, l') /\ tick_label (st t j) l' /\ (client j q \/ t < q) /\
    ((t = q) \/ (env_label l = false) \/ (exists x, l = LClock x) \/ hb t q).
Proof.
  intros Hq Hl Ha Hb.
  destruct (env_label l) eqn:El.
  - assert (Hx : (exists n, (l = LBegin n \/ exists o, l = LEnd n o) /\ unfin (s_fut (st q j) n)) \/ exists x, l = LClock x).
    { destruct (st_step q j l Hq) as [Es _]. destruct l; try discriminate; [left..|right; eauto]; exists n; split; eauto;
        cbn in Es; destruct (s_fut (st q j) n); try discriminate; exact I. }
    destruct Hx as [(n & Hn & U)|(x & ->)].
    + destruct (launch_between j n a (q - a) Ha) as (t & l' & k & H1 & H2 & H3 & H4 & H5 & H6 & F1).
      { replace (a + (q - a)) with q by lia. exact U. }
      exists t, l'. split; [lia|]. split; [exact H3|]. split; [exact H4|]. split; [right; lia|]. right. right. right.
      assert (B : hb k q).
      { assert (S1 : forall b, k < b -> nth_error ls b = Some (j, LBegin n) -> hb k b).
        { intros b Hkb Hb'. apply t_step. split; [exact Hkb|]. right. exists j, n. left. auto. }
        destruct Hn as [->|[o ->]]; [apply S1; [lia|exact Hq]|].
        destruct (c_threads (cs j) =? 0) eqn:Et.
        { apply (hb_clients j); [lia|exact H5|]. exists (j, LEnd n o). split; [exact Hq|]. unfold step_thread, job_thread. cbn. now rewrite Et. }
        (* the job began in between *)
        assert (F2 : s_fut (st q j) n = FRunning).
        { destruct (st_step q j _ Hq) as [Es _]. cbn in Es. destruct (s_fut (st q j) n); try discriminate. reflexivity. }
        destruct (turns (fun k => s_fut (st k j) n <> FRunning)) with (a := S k) (d := q - S k) as (b & Hb1 & Hb2 & Hb3).
        { intros x. destruct (s_fut (st x j) n); (left; discriminate) || (right; tauto). }
        { exact F1. }
        { replace (S k + (q - S k)) with q by lia. tauto. }
        assert (F3 : s_fut (st (S b) j) n = FRunning) by (destruct (s_fut (st (S b) j) n); try reflexivity; exfalso; apply Hb3; discriminate).
        destruct (changed b j) as (lb & Hnb & Es); [congruence|].
        destruct (fut_step _ _ _ _ n (Hwf j) (st_inv b j) Es) as [X|[[X [[-> Y]|[-> Y]]]|[(o' & X & _)|(X & Y & _)]]].
        - congruence.
        - eapply t_trans; [apply (S1 b); [lia|exact Hnb]|]. apply t_step. split; [lia|]. left.
          exists (j, LBegin n), (j, LEnd n o), (job_thread cs home j n). auto.
        - pose proof (k_kind _ _ _ _ (i_core _ _ (st_inv b j)) n) as Hk'. unfold deferred in Hk'. rewrite Et in Hk'. congruence.
        - congruence.
        - rewrite F3 in X. discriminate. }
      destruct (Nat.eq_dec t k) as [->|Hne]; [exact B|]. eapply t_trans; [|exact B].
      apply (hb_clients j); [lia|eapply tick_client; eassumption|exact H5].
    + destruct Hb as [Hb|Ht]; [|destruct Ht as [Ht|[[k Ht] _]]; discriminate].
      destruct (tick_between j a Ha (q - a)) as (t & l' & H1 & H2 & H3); [replace (a + (q - a)) with q by lia; exact Hb|].
      exists t, l'. split; [lia|]. split; [exact H2|]. split; [exact H3|]. split; [right; lia|]. right. right. left. eauto.
  - assert (C : client j q) by (eapply not_env_client; eassumption).
    destruct Hb as [Hb|Ht].
    + destruct (tick_between j a Ha (q - a)) as (t & l' & H1 & H2 & H3); [replace (a + (q - a)) with q by lia; exact Hb|].
      exists t, l'. split; [lia|]. auto 10.
    + exists q, l. split; [lia|]. auto 10.
Qed.

(** An event is after a tick of its execution, ... *)
Lemma ticked_before q j e a : happens cs z ls q j e -> e <> EDestroyed -> a <= q -> ~ busy (st a j) ->
  exists t l, a <= t <= q /\ nth_error ls t = Some (j, l) /\ tick_label (st t j) l /\ (t = q \/ hb t q).
Proof.
  intros (m & v & v' & new' & Hq & Vq & Vq' & En' & Hin') He' Ha Hj. apply at_st in Vq, Vq'. subst v v'.
  destruct (st_step q j m Hq) as [Eq Oq].
  pose proof (quiet_step _ z _ _ _ _ _ (st_reach q j) Eq En' Hin' He') as Qq.
  destruct (before_step j q m a Hq Ha Hj Qq) as (t & l' & H1 & H2 & H3 & _ & H5).
  exists t, l'. split; [lia|]. split; [exact H2|]. split; [exact H3|]. assert (C' : client j t) by (eapply tick_client; eassumption).
  destruct H5 as [->|[H5|[(x & ->)|H5]]].
  - auto.
  - destruct (Nat.eq_dec t q) as [->|Hne]; [auto|]. right. apply (hb_clients j); [lia|exact C'|eapply not_env_client; eassumption].
  - exfalso. cbn in Eq. inversion Eq as [Es]. rewrite <- Es in En'. unfold trace in En'. cbn in En'.
    rewrite <- (app_nil_r (rev (s_log (st q j)))) in En' at 1. apply app_inv_head in En'. subst new'. destruct Hin'.
  - auto.
Qed.

(** ... and before one of the client's steps, if the execution comes to rest. *)
Lemma rests_after p i e t : happens cs z ls p i e -> p < t -> not_in_progress (st t i) ->
  exists k, p <= k < t /\ client i k /\ (k = p \/ hb p k).
Proof.
  intros (l & w & w' & new & Hp & Wp & Wp' & En & Hin) Hl R. apply at_st in Wp, Wp'. subst w w'.
  destruct (st_step p i l Hp) as [Ep Op].
  destruct (env_label l) eqn:El; [|exists p; split; [lia|]; split; [eapply not_env_client; eassumption|auto]].
  assert (X : exists k, p < k < t /\ client i k /\ hb p k).
  { destruct l; try discriminate.
    - apply (begin_then p i n t Hp); [lia|exact R].
    - apply (end_then p i n o t Hp); [lia|exact R].
    - exfalso. cbn in Ep. inversion Ep as [Es]. rewrite <- Es in En. unfold trace in En. cbn in En.
      rewrite <- (app_nil_r (rev (s_log (st p i)))) in En at 1. apply app_inv_head in En. subst new. destruct Hin. }
  destruct X as (k & Hk & X). exists k. split; [lia|]. tauto.
Qed.

(** ** Executions of which only one is in progress at a time *)
Variable sib : nat -> nat -> Prop.
Hypothesis sib_sym : forall i j, sib i j -> sib j i.
Hypothesis sib_home : forall i j, sib i j -> home i = home j.
Hypothesis Hsib : forall t j l i, nth_error ls t = Some (j, l) -> tick_label (st t j) l -> i <> j -> sib i j ->
  not_in_progress (st t i).

Lemma sib_busy p i j : i <> j -> sib i j -> busy (st p i) -> ~ busy (st p j).
Proof.
  revert i j. induction p as [|p IH]; intros i j Hij Hs Hi Hj.
  - destruct Hi as [[]|[n []]].
  - assert (G : forall i j, i <> j -> sib i j -> busy (st (S p) i) -> busy (st (S p) j) -> forall l, nth_error ls p = Some (i, l) -> False).
    { clear i j Hij Hs Hi Hj. intros i j Hij Hs Hi Hj l El. destruct (st_step p i l El) as [Es Eo]. rewrite (Eo j) in Hj by auto.
      destruct (busy_step _ (Hwf i) z _ _ _ (st_reach p i) Es Hi) as [Hb|Ht].
      - exact (IH i j Hij Hs Hb Hj).
      - apply (rest_not_busy _ (Hwf j) z _ (st_reach p j)); [|exact Hj]. eapply Hsib; [exact El|exact Ht|auto|auto]. }
    destruct (nth_error ls p) as [[k l]|] eqn:El.
    + destruct (Nat.eq_dec k i) as [->|Hi']; [exact (G i j Hij Hs Hi Hj l eq_refl)|].
      destruct (Nat.eq_dec k j) as [->|Hj']; [exact (G j i (not_eq_sym Hij) (sib_sym _ _ Hs) Hj Hi l eq_refl)|].
      destruct (st_step p k l El) as [_ Eo]. rewrite (Eo i) in Hi by auto. rewrite (Eo j) in Hj by auto. exact (IH i j Hij Hs Hi Hj).
    + rewrite (st_none p El) in *. exact (IH i j Hij Hs Hi Hj).
Qed.

(** Between an event of one and a later event of another the latter is ticked. *)
Lemma turn_taken p q i j e e' :
  i <> j -> sib i j -> p < q -> happens cs z ls p i e -> happens cs z ls q j e' -> e <> EDestroyed -> e' <> EDestroyed ->
  exists t l, p < t <= q /\ nth_error ls t = Some (j, l) /\ tick_label (st t j) l /\ hb p t /\ (t = q \/ hb t q).
Proof.
  intros Hij Hs Hpq HP HQ He He'. pose proof HP as (l & w & w' & new & Hp & Wp & Wp' & En & Hin). apply at_st in Wp, Wp'. subst w w'.
  destruct (st_step p i l Hp) as [Ep Op].
  pose proof (quiet_step _ z _ _ _ _ _ (st_reach p i) Ep En Hin He) as Qp.
  assert (Hj : ~ busy (st (S p) j)).
  { rewrite (Op j) by auto. intros Hb. destruct Qp as [Qp|Qp].
    - exact (sib_busy p i j Hij Hs Qp Hb).
    - eapply (rest_not_busy _ (Hwf j) z _ (st_reach p j)); [|exact Hb]. eapply Hsib; [exact Hp|exact Qp|auto|auto]. }
  destruct (ticked_before q j e' (S p) HQ He' Hpq Hj) as (t & l' & H1 & H2 & H3 & H5).
  assert (C : client i t) by (destruct (tick_client t j l' H2 H3) as (a & Ha & Ta); exists a; rewrite (sib_home i j Hs); auto).
  exists t, l'. split; [lia|]. split; [exact H2|]. split; [exact H3|]. split; [|exact H5].
  destruct (rests_after p i e t HP) as (k & Hk & Ck & Bk); [lia|exact (Hsib t j l' i H2 H3 Hij Hs)|].
  assert (B : hb k t) by (apply (hb_clients i); [lia|exact Ck|exact C]).
  destruct Bk as [->|Bk]; [exact B|]. eapply t_trans; eassumption.
Qed.

Lemma sib_successive p q i j e e' :
  i <> j -> sib i j -> p < q -> happens cs z ls p i e -> happens cs z ls q j e' -> e <> EDestroyed -> e' <> EDestroyed -> hb p q.
Proof.
  intros Hij Hs Hpq Hp Hq He He'. destruct (turn_taken p q i j e e' Hij Hs Hpq Hp Hq He He') as (t & l & _ & _ & _ & H1 & [->|H2]); [exact H1|].
  eapply t_trans; eassumption.
Qed.

(** ** Within one execution *)
Lemma event_thread p i l e new : nth_error ls p = Some (i, l) -> trace (st (S p) i) = trace (st p i) ++ new -> In e new ->
  (forall n, e = EBegin n -> c_threads (cs i) <> 0 -> l = LBegin n) /\
  (forall n o, e = EEnd n o -> l = LEnd n o) /\
  step_thread cs home (i, l) = Some (match on_thread (cs i) e with Client => home i | Worker n => JobThread i n end).
Proof.
  intros Hp En Hin. destruct (st_step p i l Hp) as [Es _].
  assert (HR : reachable (cs i) z (st (S p) i)) by apply st_reach.
  assert (Fresh : forall (Q : event -> Prop), (forall x y a b, at_pos (trace (st (S p) i)) x a -> at_pos (trace (st (S p) i)) y b -> Q a -> Q b -> x = y) ->
            Q e -> forall a, Q a -> ~ In a (trace (st p i))).
  { intros Q U Qe a Qa H. apply In_nth_error in H, Hin. destruct H as [x Hx], Hin as [y Hy].
    assert (x < Datatypes.length (trace (st p i))) by (apply nth_error_Some; congruence).
    assert (X : x = Datatypes.length (trace (st p i)) + y); [|lia].
    apply (U _ _ a e); auto; unfold at_pos; rewrite En.
    - rewrite nth_error_app1 by assumption. exact Hx.
    - rewrite nth_error_app2 by lia. rewrite <- Hy. f_equal. lia. }
  assert (HB : forall n, e = EBegin n -> ~ In (EBegin n) (trace (st p i)) /\ In (EBegin n) (trace (st (S p) i))).
  { intros n ->. split; [|rewrite En; apply in_app_iff; auto].
    apply (Fresh (fun a => a = EBegin n)); auto. intros x y a b Hx Hy -> ->. eapply (uniq_begin _ z _ (Hwf i) HR); eassumption. }
  assert (HE : forall n o, e = EEnd n o -> (forall o', ~ In (EEnd n o') (trace (st p i))) /\ In (EEnd n o) (trace (st (S p) i))).
  { intros n o ->. split; [|rewrite En; apply in_app_iff; auto]. intros o'.
    apply (Fresh (fun a => exists o, a = EEnd n o)); eauto. intros x y a b Hx Hy [oa ->] [ob ->].
    eapply (uniq_end _ z _ (Hwf i) HR); eassumption. }
  assert (T1 : forall n, e = EBegin n -> (0 < c_threads (cs i) -> l = LBegin n) /\ (c_threads (cs i) = 0 -> l = LCtl)).
  { intros n E. destruct (HB n E) as [H1 H2]. destruct (who_begins _ z _ _ _ n (Hwf i) (st_reach p i) Es H1 H2) as [A B].
    split; [exact A|]. intros H0. now destruct (B H0). }
  assert (T2 : forall n o, e = EEnd n o -> l = LEnd n o).
  { intros n o E. destruct (HE n o E) as [H1 H2].
    assert (O1 : over (s_fut (st p i) n) = false).
    { destruct (over (s_fut (st p i) n)) eqn:O; [|reflexivity]. apply (over_log _ _ n (st_inv p i)) in O. destruct O as [o' O].
      exfalso. apply (H1 o'). now apply trace_in. }
    assert (O2 : over (s_fut (st (S p) i) n) = true).
    { apply (over_log _ _ n (st_inv (S p) i)). exists o. now apply trace_in. }
    destruct (fut_step _ _ _ _ n (Hwf i) (st_inv p i) Es) as [X|[[X _]|[(o' & X & -> & Y)|(X & _)]]].
    - congruence.
    - rewrite X in O2. discriminate.
    - cbn in Es. rewrite Y in Es. inversion Es as [Ez]. rewrite <- Ez in En. unfold trace in En. cbn in En.
      apply app_inv_head in En. subst new e. destruct Hin as [Hin|[]]. congruence.
    - destruct (s_fut (st (S p) i) n); discriminate. }
  split; [intros n E Ht; apply (T1 n E); lia|]. split; [exact T2|].
  assert (Tc : env_label l = false -> step_thread cs home (i, l) = Some (home i)) by (unfold step_thread; destruct l; cbn; try discriminate; reflexivity).
  assert (Te : env_label l = true -> (exists n, l = LBegin n /\ e = EBegin n) \/ (exists n o, l = LEnd n o /\ e = EEnd n o)).
  { destruct l; try discriminate; intros _; cbn in Es.
    - left. exists n. destruct (s_fut (st p i) n); try discriminate. inversion Es as [Ez]. rewrite <- Ez in En. unfold trace in En. cbn in En.
      apply app_inv_head in En. subst new. destruct Hin as [Hin|[]]. auto.
    - right. exists n, o. destruct (s_fut (st p i) n); try discriminate. inversion Es as [Ez]. rewrite <- Ez in En. unfold trace in En. cbn in En.
      apply app_inv_head in En. subst new. destruct Hin as [Hin|[]]. auto.
    - exfalso. inversion Es as [Ez]. rewrite <- Ez in En. unfold trace in En. cbn in En.
      rewrite <- (app_nil_r (rev (s_log (st p i)))) in En at 1. apply app_inv_head in En. subst new. destruct Hin. }
  destruct (env_label l) eqn:El.
  - destruct (Te eq_refl) as [(n & -> & ->)|(n & o & -> & ->)]; unfold step_thread, on_thread, job_thread; cbn; destruct (c_threads (cs i) =? 0); reflexivity.
  - rewrite (Tc eq_refl). f_equal. unfold on_thread. destruct e; try reflexivity.
    + destruct (Nat.eqb_spec (c_threads (cs i)) 0); [reflexivity|]. exfalso. rewrite (proj1 (T1 n eq_refl)) in El by lia. discriminate.
    + exfalso. rewrite (T2 n o eq_refl) in El. discriminate.
Qed.

Lemma st_grows p i : exists new, trace (st (S p) i) = trace (st p i) ++ new.
Proof.
  destruct (nth_error ls p) as [[j l]|] eqn:E.
  - destruct (st_step p j l E) as [Es Eo]. destruct (Nat.eq_dec i j) as [->|Hn].
    + destruct (step_log _ _ _ _ (Hwf j) (st_inv p j) Es) as [new El]. exists (rev new). unfold trace. rewrite El. apply rev_app_distr.
    + rewrite (Eo i Hn). exists []. now rewrite app_nil_r.
  - rewrite (st_none p E). exists []. now rewrite app_nil_r.
Qed.
Lemma st_prefix p i d : exists new, trace (st (p + d) i) = trace (st p i) ++ new.
Proof.
  induction d as [|d [new IH]]; [exists []; rewrite Nat.add_0_r; now rewrite app_nil_r|].
  destruct (st_grows (p + d) i) as [n2 H]. exists (new ++ n2). replace (p + S d) with (S (p + d)) by lia. now rewrite H, IH, app_assoc.
Qed.
Lemma st_end i : st (List.length ls) i = wend i.
Proof. unfold st. now rewrite firstn_all, Hrun. Qed.

(** Step [p] is the one in which event number [x] of execution [i] happens. *)
Definition in_step (p i x : nat) : Prop :=
  List.length (trace (st p i)) <= x < List.length (trace (st (S p) i)).

Lemma pos_at p i x e : p < List.length ls -> x < List.length (trace (st (S p) i)) ->
  (nth_error (trace (st (S p) i)) x = Some e <-> at_pos (trace (wend i)) x e).
Proof.
  intros Hp Hx. destruct (st_prefix (S p) i (Datatypes.length ls - S p)) as [new H].
  replace (S p + (Datatypes.length ls - S p)) with (Datatypes.length ls) in H by lia. rewrite st_end in H.
  unfold at_pos. rewrite H, nth_error_app1 by exact Hx. reflexivity.
Qed.

Lemma happens_pos p i e : happens cs z ls p i e -> exists x, in_step p i x /\ at_pos (trace (wend i)) x e.
Proof.
  intros (l & w & w' & new & Hn & Wp & Wp' & En & Hin). apply at_st in Wp, Wp'. subst w w'.
  apply In_nth_error in Hin. destruct Hin as [y Hy]. exists (Datatypes.length (trace (st p i)) + y).
  assert (Hl : y < Datatypes.length new) by (apply nth_error_Some; congruence).
  assert (Hx : Datatypes.length (trace (st p i)) + y < Datatypes.length (trace (st (S p) i))) by (rewrite En, app_length; lia).
  split; [split; [lia|exact Hx]|]. apply (pos_at p i); [apply nth_error_Some; congruence|exact Hx|].
  rewrite En, nth_error_app2 by lia. rewrite <- Hy. f_equal. lia.
Qed.

Lemma in_step_happens p i x e : in_step p i x -> at_pos (trace (wend i)) x e ->
  happens cs z ls p i e /\ exists l new, nth_error ls p = Some (i, l) /\ trace (st (S p) i) = trace (st p i) ++ new /\ In e new.
Proof.
  intros [H1 H2] Hx. destruct (changed p i) as (l & Hn & Es); [intros E; rewrite E in H2; lia|].
  destruct (st_grows p i) as [new En].
  assert (Hin : In e new).
  { apply (pos_at p i x e) in Hx; [|apply nth_error_Some; congruence|exact H2]. rewrite En, nth_error_app2 in Hx by exact H1.
    eapply nth_error_In. exact Hx. }
  split; [|eauto]. exists l, (st p), (st (S p)), new. auto using st_at.
Qed.

Lemma find_step i x : x < List.length (trace (wend i)) -> exists p, in_step p i x.
Proof.
  intros Hx. rewrite <- (st_end i) in Hx.
  destruct (turns (fun k => Datatypes.length (trace (st k i)) <= x)) with (a := 0) (d := Datatypes.length ls) as (k & _ & H1 & H2).
  - intros k. lia.
  - cbn. lia.
  - cbn. lia.
  - exists k. unfold in_step. lia.
Qed.

Lemma step_mono p q i x y : in_step p i x -> in_step q i y -> x < y -> p <= q.
Proof.
  intros [H1 H2] [H3 H4] Hl. destruct (Nat.le_gt_cases p q) as [H|H]; [exact H|]. exfalso.
  destruct (st_prefix (S q) i (p - S q)) as [new E]. replace (S q + (p - S q)) with p in E by lia.
  rewrite E, app_length in H1. lia.
Qed.

Lemma lift_one p q i x y : in_step p i x -> in_step q i y -> precedes (cs i) (trace (wend i)) x y -> p = q \/ hb p q.
Proof.
  intros Px Qy (Hl & e & e' & Hx & Hy & H).
  pose proof (step_mono p q i x y Px Qy Hl) as Hpq. destruct (Nat.eq_dec p q) as [|Hne]; [auto|]. right.
  destruct (in_step_happens p i x e Px Hx) as (Ap & l & new & Hn & En & Hin).
  destruct (in_step_happens q i y e' Qy Hy) as (Aq & l' & new' & Hn' & En' & Hin').
  destruct (event_thread p i l e new Hn En Hin) as (B1 & E1 & T1).
  destruct (event_thread q i l' e' new' Hn' En' Hin') as (B2 & E2 & T2).
  assert (Hth : on_thread (cs i) e = on_thread (cs i) e' -> hb p q).
  { intros E. apply t_step. split; [lia|]. left. rewrite <- E in T2. eauto 10. }
  destruct H as [H|H]; [auto|].
  destruct e; cbn in H; try contradiction.
  - destruct e'; try contradiction. subst n0. destruct (Nat.eqb_spec (c_threads (cs i)) 0) as [E0|N0].
    + apply Hth. unfold on_thread. now rewrite (proj2 (Nat.eqb_eq _ 0) E0).
    + apply t_step. split; [lia|]. right. exists i, n. left. split; [exact Ap|]. rewrite <- (B2 n eq_refl N0). exact Hn'.
  - pose proof (E1 n o eq_refl) as ->. destruct e'; try contradiction.
    + subst n0. apply t_step. split; [lia|]. right. exists i, n. right. left. exists o, log. split; [exact Hn|exact Aq].
    + destruct (end_then p i n o (S q) Hn) as (k & Hk & C & B); [lia| |].
      { right. right. rewrite En'. apply in_app_iff. auto. }
      assert (Cq : client i q) by (exists (i, l'); split; [exact Hn'|exact T2]).
      destruct (Nat.eq_dec k q) as [->|Hk']; [exact B|]. eapply t_trans; [exact B|]. apply (hb_clients i); [lia|exact C|exact Cq].
Qed.

Lemma lift p q i x y : happens_before (cs i) (trace (wend i)) x y -> in_step p i x -> in_step q i y -> p = q \/ hb p q.
Proof.
  intros H. revert p q. induction H as [x y H|x y w H1 IH1 H2 IH2]; intros p q Px Qy.
  - eapply lift_one; eassumption.
  - destruct (find_step i y) as [r Hr].
    { apply nth_error_Some. apply clos_trans_t1n in H2. inversion H2 as [? A|? ? A]; subst; destruct A as (_ & e & e' & A & _);
        unfold at_pos in A; congruence. }
    destruct (IH1 p r Px Hr) as [->|B1], (IH2 r q Hr Qy) as [->|B2]; auto. right. eapply t_trans; eassumption.
Qed.

Lemma same_ordered (loc : Type) (touches : nid -> loc -> access -> Prop) i p q e e' l k k' :
  disciplined loc touches (cs i) -> happens cs z ls p i e -> happens cs z ls q i e' ->
  may_access loc touches e l k -> may_access loc touches e' l k' -> conflict k k' -> p = q \/ hb p q \/ hb q p.
Proof.
  intros D Hp Hq Ai Aj Hc.
  destruct (happens_pos p i e Hp) as (x & Px & Hx). destruct (happens_pos q i e' Hq) as (y & Qy & Hy).
  pose proof (proj2 (world_alone cs z ls wend i Hrun)) as HR.
  destruct (Nat.lt_total x y) as [H|[H|H]].
  - destruct (lift p q i x y) as [E|B]; auto. eapply (accesses_ordered loc touches (cs i) z (wend i)); eauto.
  - subst y. destruct (Nat.lt_total p q) as [G|[G|G]]; [|auto|]; exfalso.
    + destruct Px as [P1 P2], Qy as [Q1 Q2]. destruct (st_prefix (S p) i (q - S p)) as [new E].
      replace (S p + (q - S p)) with q in E by lia. rewrite E, app_length in Q1. lia.
    + destruct Px as [P1 P2], Qy as [Q1 Q2]. destruct (st_prefix (S q) i (p - S q)) as [new E].
      replace (S q + (p - S q)) with p in E by lia. rewrite E, app_length in P1. lia.
  - destruct (lift q p i y x) as [E|B]; auto. eapply (accesses_ordered loc touches (cs i) z (wend i) y x e' e); eauto.
    destruct Hc; [right|left]; assumption.
Qed.

(** A job that is still being executed: nothing is known to come after its beginning. *)
Lemma still_running_world p i n : nth_error ls p = Some (i, LBegin n) -> c_threads (cs i) <> 0 ->
  (forall q, p < q -> forall a, nth_error ls q = Some a -> step_thread cs home a <> Some (JobThread i n)) ->
  forall q, ~ hb p q.
Proof.
  intros Hp Ht Hno q H. apply clos_trans_t1n in H.
  assert (G : exists r, world_precedes cs z ls home p r) by (inversion H; eauto). clear H q. destruct G as (q & Hl & H).
  destruct H as [(a & b & t & Ha & Hb & Ta & Tb)|(i' & m & H)].
  - rewrite Hp in Ha. inversion Ha; subst a. unfold step_thread, job_thread in Ta. cbn in Ta.
    destruct (Nat.eqb_spec (c_threads (cs i)) 0); [contradiction|]. inversion Ta; subst t. exact (Hno q Hl b Hb Tb).
  - destruct H as [[(l & w & w' & new & Ha & Wp & Wp' & En & Hin) _]|[(o & t & Ha & _)|(o & l & w & w' & Ha & _)]]; [|congruence..].
    apply at_st in Wp, Wp'. subst w w'. rewrite Hp in Ha. inversion Ha; subst i' l.
    destruct (st_step p i _ Hp) as [Es _]. cbn in Es. destruct (s_fut (st p i) n); try discriminate. inversion Es as [Ez].
    rewrite <- Ez in En. unfold trace in En. cbn in En. apply app_inv_head in En. subst new. destruct Hin as [Hin|[]]. discriminate.
Qed.

Lemma hb_forward p q : hb p q -> p < q.
Proof. intros H. induction H as [p q [H _]|p q r _ H1 _ H2]; lia. Qed.
End History.

(** ** One client thread, one execution at a time (C96) *)
Section Successive.
Variable cs : nat -> config.
Hypothesis Hwf : forall i, wf_dag (c_dag (cs i)).
Variables (z : Z) (ls : list (nat * label)) (wend : world).
Hypothesis Hrun : run_world cs (world_init z) ls = Some wend.
Hypothesis Hone : one_at_a_time cs z ls.

Lemma rest_at t j l i : nth_error ls t = Some (j, l) -> tick_label (st cs z ls wend t j) l -> i <> j -> True ->
  not_in_progress (st cs z ls wend t i).
Proof.
  intros H Ht Hn _. destruct (nth_split ls t _ H) as [_ E]. exact (Hone _ j l _ (st cs z ls wend t) E (st_at cs z ls wend Hrun t) Ht i Hn).
Qed.

Theorem successive : forall p q i j e e',
  i <> j -> p < q -> happens cs z ls p i e -> happens cs z ls q j e' -> e <> EDestroyed -> e' <> EDestroyed ->
  world_before cs z ls one_thread p q.
Proof.
  intros p q i j e e' Hij. apply (sib_successive cs Hwf one_thread z ls wend Hrun (fun _ _ => True)); auto. exact rest_at.
Qed.

Theorem world_no_race (loc : Type) (touches : nat -> nid -> loc -> access -> Prop) p q :
  (forall i, disciplined loc (touches i) (cs i)) -> ~ world_race cs z ls one_thread loc touches p q.
Proof.
  intros D (i & j & e & e' & l & k & k' & Hp & Hq & He & He' & Ai & Aj & Hc & Hne & N1 & N2).
  destruct (Nat.eq_dec i j) as [<-|Hij].
  - destruct (same_ordered cs Hwf one_thread z ls wend Hrun loc (touches i) i p q e e' l k k' (D i) Hp Hq Ai Aj Hc) as [H|[H|H]]; auto.
  - destruct (Nat.lt_total p q) as [G|[G|G]]; [|contradiction|].
    + apply N1. eapply successive; eassumption.
    + apply N2. eapply (successive q p j i); eauto.
Qed.
End Successive.
