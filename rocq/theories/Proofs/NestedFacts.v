(** Jobs that execute task sets (C97). *)
From Coq Require Import Lia String Relation_Operators Operators_Properties.
From Verif Require Import Model.Common Model.Records Model.Jobs Model.TaskSet Model.Dag
     Model.Sched Model.Exec Model.World Spec.Graph Spec.Trace Spec.World Spec.Races Spec.Nested Spec.WorldRaces
     Proofs.Sets Proofs.TraceFacts Proofs.ExecInv Proofs.ExecProps Proofs.LogFacts Proofs.Ticks Proofs.Threads
     Proofs.RaceFacts Proofs.WorldFacts Proofs.WorldRaceFacts.
Open Scope nat_scope.
Open Scope list_scope.

Section Nests.
Variable cs : nat -> config.
Hypothesis Hwf : forall i, wf_dag (c_dag (cs i)).
Variables (owner : nat -> option (nat * nid)) (home : nat -> world_thread) (z : Z) (ls : list (nat * label)) (wend : world).
Hypothesis Hrun : run_world cs (world_init z) ls = Some wend.
Hypothesis Hhome : homes cs owner home.
Hypothesis Hnest : nested cs owner z ls.

Notation St := (st cs z ls wend).
Notation hb := (world_before cs z ls home).
Notation hap := (happens cs z ls).
Let Hstep := st_step cs z ls wend Hrun.
Let Hinv := st_inv cs Hwf z ls wend Hrun.
Let Hreach := st_reach cs z ls wend Hrun.
Let Hchanged := changed cs z ls wend Hrun.

Lemma hb_then p q r : hb p q -> (q = r \/ hb q r) -> hb p r.
Proof. intros H [<-|H']; [exact H|]. eapply t_trans; eassumption. Qed.
Lemma then_hb p q r : (p = q \/ hb p q) -> hb q r -> hb p r.
Proof. intros [->|H'] H; [exact H|]. eapply t_trans; eassumption. Qed.

Lemma at_step p i l : nth_error ls p = Some (i, l) ->
  (forall k n, owner i = Some (k, n) -> env_label l = false -> In n (running (trace (St p k)))) /\
  (forall n o j, owner j = Some (i, n) -> l = LEnd n o -> not_in_progress (St p j)) /\
  (forall j, owner j = owner i -> j <> i -> tick_label (St p i) l -> not_in_progress (St p j)).
Proof.
  intros H. destruct (nth_split ls p _ H) as [_ E]. pose proof (st_at cs z ls wend Hrun p) as W.
  destruct Hnest as (N1 & N2 & N3). split; [exact (N1 _ i l _ _ E W)|]. split; [exact (N2 _ i l _ _ E W)|exact (N3 _ i l _ _ E W)].
Qed.

Lemma tick_not_env s l : tick_label s l -> env_label l = false.
Proof. intros [->|[[k ->] _]]; reflexivity. Qed.

(** ** Jobs in the history *)
Lemma run_fut p i n : In n (running (trace (St p i))) <-> s_fut (St p i) n = FRunning.
Proof. exact (k_run _ _ _ _ (i_core _ _ (Hinv p i)) n). Qed.

Lemma over_stays p i n d : over (s_fut (St p i) n) = true -> over (s_fut (St (p + d) i) n) = true.
Proof.
  intros H. induction d as [|d IH]; [now rewrite Nat.add_0_r|]. replace (p + S d) with (S (p + d)) by lia.
  destruct (nth_error ls (p + d)) as [[j l]|] eqn:E; [|now rewrite (st_none cs z ls wend _ E)].
  destruct (Hstep _ _ _ E) as [Es Eo]. destruct (Nat.eq_dec i j) as [->|Hn]; [|now rewrite (Eo i Hn)].
  destruct (fut_step _ _ _ _ n (Hwf j) (Hinv _ _) Es) as [X|[[_ [[_ X]|[_ X]]]|[(o & X & _)|(_ & X & _)]]].
  - now rewrite X.
  - rewrite X in IH. discriminate.
  - rewrite X in IH. discriminate.
  - now rewrite X.
  - rewrite X in IH. discriminate.
Qed.
Lemma over_later p q i n : p <= q -> over (s_fut (St p i) n) = true -> over (s_fut (St q i) n) = true.
Proof. intros H. replace q with (p + (q - p)) by lia. apply over_stays. Qed.
Lemma begun_stays p i n d : begun (s_fut (St p i) n) = true -> begun (s_fut (St (p + d) i) n) = true.
Proof.
  intros H. pose proof (st_prefix cs Hwf z ls wend Hrun p i d) as [new E].
  apply (begun_log _ _ n (Hinv p i)) in H. apply (begun_log _ _ n (Hinv (p + d) i)). apply trace_in. rewrite E.
  apply in_app_iff. left. now apply trace_in.
Qed.
Lemma begun_later p q i n : p <= q -> begun (s_fut (St p i) n) = true -> begun (s_fut (St q i) n) = true.
Proof. intros H. replace q with (p + (q - p)) by lia. apply begun_stays. Qed.

Lemma end_over p i n o : nth_error ls p = Some (i, LEnd n o) -> over (s_fut (St (S p) i) n) = true /\ hap p i (EEnd n o).
Proof.
  intros H. destruct (Hstep _ _ _ H) as [E _]. pose proof E as E'. cbn in E. destruct (s_fut (St p i) n); try discriminate. inversion E as [Ez]. split.
  - cbn. unfold upd. now rewrite Nat.eqb_refl.
  - exists (LEnd n o), (St p), (St (S p)), [EEnd n o]. split; [exact H|]. split; [apply st_at; exact Hrun|].
    split; [apply st_at; exact Hrun|]. split; [|left; reflexivity]. rewrite <- Ez. reflexivity.
Qed.

Lemma end_label p i n o : hap p i (EEnd n o) -> nth_error ls p = Some (i, LEnd n o).
Proof.
  intros (l & w & w' & new & Hn & Wp & Wp' & En & Hin). apply (at_st cs z ls wend Hrun) in Wp, Wp'. subst w w'.
  destruct (event_thread cs Hwf home z ls wend Hrun p i l _ new Hn En Hin) as (_ & E & _). now rewrite <- (E n o eq_refl).
Qed.

Lemma end_found t i n : over (s_fut (St t i) n) = true -> exists d o, d < t /\ nth_error ls d = Some (i, LEnd n o).
Proof.
  intros H.
  destruct (turns (fun k => over (s_fut (St k i) n) = false)) with (a := 0) (d := t) as (k & Hk & H1 & H2).
  - intros k. destruct (over (s_fut (St k i) n)); [right; discriminate|left; reflexivity].
  - reflexivity.
  - cbn. rewrite H. discriminate.
  - destruct (Hchanged k i) as (l & Hn & Es); [congruence|].
    destruct (over (s_fut (St (S k) i) n)) eqn:Ho; [|now destruct H2].
    destruct (fut_step _ _ _ _ n (Hwf i) (Hinv k i) Es) as [X|[[X _]|[(o & X & -> & _)|(X & _)]]].
    + congruence.
    + rewrite X in Ho. discriminate.
    + exists k, o. split; [lia|exact Hn].
    + destruct (s_fut (St (S k) i) n); discriminate.
Qed.

Lemma event_found t i e : In e (trace (St t i)) -> exists b, b < t /\ hap b i e.
Proof.
  intros H. apply In_nth_error in H. destruct H as [x Hx].
  assert (Hl : x < List.length (trace (St t i))) by (apply nth_error_Some; congruence).
  destruct (turns (fun k => Datatypes.length (trace (St k i)) <= x)) with (a := 0) (d := t) as (k & Hk & H1 & H2); [intros k; lia|cbn; lia|cbn; lia|].
  exists k. split; [lia|]. destruct (Hchanged k i) as (l & Hn & Es); [intros E; rewrite E in H2; contradiction|].
  destruct (st_grows cs Hwf z ls wend Hrun k i) as [new En]. exists l, (St k), (St (S k)), new.
  split; [exact Hn|]. split; [apply st_at; exact Hrun|]. split; [apply st_at; exact Hrun|]. split; [exact En|].
  destruct (st_prefix cs Hwf z ls wend Hrun (S k) i (t - S k)) as [more Em]. replace (S k + (t - S k)) with t in Em by lia.
  rewrite Em, En, nth_error_app1 in Hx by (rewrite <- En; lia). rewrite nth_error_app2 in Hx by exact H1. eapply nth_error_In. exact Hx.
Qed.

Lemma event_in p i e : hap p i e -> In e (trace (St (S p) i)).
Proof.
  intros (l & w & w' & new & _ & Wp & Wp' & En & Hin). apply (at_st cs z ls wend Hrun) in Wp, Wp'. subst w w'.
  rewrite En. apply in_app_iff. auto.
Qed.

Lemma begin_begun p i n : hap p i (EBegin n) -> begun (s_fut (St (S p) i) n) = true.
Proof. intros H. apply (begun_log _ _ n (Hinv (S p) i)). apply trace_in. apply event_in. exact H. Qed.

Lemma same_begin p q i n : hap p i (EBegin n) -> hap q i (EBegin n) -> p = q.
Proof.
  intros Hp Hq. destruct (happens_pos cs Hwf z ls wend Hrun p i _ Hp) as (x & Px & Hx). destruct (happens_pos cs Hwf z ls wend Hrun q i _ Hq) as (y & Qy & Hy).
  pose proof (proj2 (world_alone cs z ls wend i Hrun)) as HR. pose proof (uniq_begin _ z _ (Hwf i) HR _ _ _ Hx Hy). subst y.
  destruct (Nat.lt_total p q) as [G|[G|G]]; [|exact G|]; exfalso; destruct Px as [P1 P2], Qy as [Q1 Q2].
  - destruct (st_prefix cs Hwf z ls wend Hrun (S p) i (q - S p)) as [new E]. replace (S p + (q - S p)) with q in E by lia. rewrite E, app_length in Q1. lia.
  - destruct (st_prefix cs Hwf z ls wend Hrun (S q) i (p - S q)) as [new E]. replace (S q + (p - S q)) with p in E by lia. rewrite E, app_length in P1. lia.
Qed.

Lemma begin_runs p i n : hap p i (EBegin n) -> s_fut (St (S p) i) n = FRunning.
Proof.
  intros H. pose proof (begin_begun p i n H) as B. destruct (s_fut (St (S p) i) n) eqn:F; try discriminate; [reflexivity|].
  exfalso. destruct (end_found (S p) i n) as (d & o' & Hd & Hn); [now rewrite F|].
  destruct (Hstep _ _ _ Hn) as [Es _]. cbn in Es. destruct (s_fut (St d i) n) eqn:F'; try discriminate.
  destruct (event_found d i (EBegin n)) as (b & Hb & Hb').
  - apply trace_in. apply (begun_log _ _ n (Hinv d i)). now rewrite F'.
  - pose proof (same_begin b p i n Hb' H). lia.
Qed.

Lemma begin_thread p i n : hap p i (EBegin n) -> exists a, nth_error ls p = Some a /\ step_thread cs home a = Some (job_thread cs home i n).
Proof.
  intros (l & w & w' & new & Hn & Wp & Wp' & En & Hin). apply (at_st cs z ls wend Hrun) in Wp, Wp'. subst w w'.
  destruct (event_thread cs Hwf home z ls wend Hrun p i l _ new Hn En Hin) as (_ & _ & E). exists (i, l). split; [exact Hn|].
  rewrite E. unfold on_thread, job_thread. destruct (c_threads (cs i) =? 0); reflexivity.
Qed.

(** ** Coming to rest *)
Lemma env_rest c s l s' : env_label l = true -> step c s l = Some s' -> not_in_progress s -> not_in_progress s'.
Proof.
  intros Hl E H. assert (G : s_pc s' = s_pc s /\ exists new, trace s' = trace s ++ new).
  { destruct l; try discriminate; cbn in E.
    - destruct (s_fut s n); try discriminate. inversion E. split; [reflexivity|]. eexists. unfold trace. cbn. reflexivity.
    - destruct (s_fut s n); try discriminate. inversion E. split; [reflexivity|]. eexists. unfold trace. cbn. reflexivity.
    - inversion E. split; [reflexivity|]. exists []. unfold trace. cbn. now rewrite app_nil_r. }
  destruct G as [G [new Gt]]. unfold not_in_progress, done in *. rewrite G, Gt. destruct H as [H|[H|H]]; auto.
  right; right. apply in_app_iff. auto.
Qed.

Lemma quiet_stays j k m p d : owner j = Some (k, m) -> not_in_progress (St p j) ->
  (forall t, p <= t < p + d -> s_fut (St t k) m <> FRunning) -> not_in_progress (St (p + d) j).
Proof.
  intros Ho H. induction d as [|d IH]; intros Hr; [now rewrite Nat.add_0_r|]. replace (p + S d) with (S (p + d)) by lia.
  assert (G : not_in_progress (St (p + d) j)) by (apply IH; intros t Ht; apply Hr; lia).
  destruct (nth_error ls (p + d)) as [[i l]|] eqn:E; [|now rewrite (st_none cs z ls wend _ E)].
  destruct (Hstep _ _ _ E) as [Es Eo]. destruct (Nat.eq_dec j i) as [->|Hn]; [|now rewrite (Eo j Hn)].
  destruct (env_label l) eqn:El; [exact (env_rest _ _ _ _ El Es G)|].
  exfalso. apply (Hr (p + d)); [lia|]. apply run_fut. exact (proj1 (at_step _ _ _ E) k m Ho El).
Qed.

Lemma owner_lt j i n : owner j = Some (i, n) -> i < j /\ home j = job_thread cs home i n.
Proof. intros H. pose proof (Hhome j) as G. now rewrite H in G. Qed.

Lemma owned_quiet j i n o d t : owner j = Some (i, n) -> nth_error ls d = Some (i, LEnd n o) -> d <= t -> not_in_progress (St t j).
Proof.
  intros Ho Hd Hl. pose proof (proj1 (proj2 (at_step _ _ _ Hd)) n o j Ho eq_refl) as R.
  destruct (Nat.eq_dec t d) as [->|Hne]; [exact R|]. destruct (end_over _ _ _ _ Hd) as [Hov _].
  replace t with (S d + (t - S d)) by lia. apply (quiet_stays j i n (S d)); [exact Ho| |].
  - destruct (Hstep _ _ _ Hd) as [_ Eo]. rewrite (Eo j); [exact R|]. destruct (owner_lt j i n Ho). lia.
  - intros u Hu F. pose proof (over_later (S d) u i n ltac:(lia) Hov) as G. rewrite F in G. discriminate.
Qed.

Lemma resting_quiet j k m d : owner j = Some (k, m) -> (forall t, d <= t -> not_in_progress (St t k)) ->
  forall t, d <= t -> not_in_progress (St t j).
Proof.
  intros Ho Hk t Ht.
  assert (N : forall u, d <= u -> s_fut (St u k) m <> FRunning).
  { intros u Hu F. apply (rest_not_busy _ (Hwf k) z _ (Hreach u k) (Hk u Hu)). right. exists m. rewrite F. exact I. }
  destruct (over (s_fut (St d k) m)) eqn:Ov.
  - destruct (end_found d k m Ov) as (d' & o & Hd' & Hn). apply (owned_quiet j k m o d' t Ho Hn). lia.
  - replace t with (0 + t) by lia. apply (quiet_stays j k m 0 t Ho); [left; reflexivity|].
    intros u Hu F. destruct (Nat.le_gt_cases d u) as [H|H]; [exact (N u H F)|].
    assert (B : begun (s_fut (St d k) m) = true) by (apply (begun_later u d); [lia|]; now rewrite F).
    destruct (s_fut (St d k) m) eqn:F'; try discriminate. apply (N d (le_n d)). exact F'.
Qed.

Lemma contained_quiet i n j o d : inside owner i n j -> nth_error ls d = Some (i, LEnd n o) -> forall t, d <= t -> not_in_progress (St t j).
Proof.
  intros H Hd. induction H as [j Ho|j k m Ho _ IH]; intros t Ht; [eapply owned_quiet; eassumption|].
  exact (resting_quiet j k m d Ho IH t Ht).
Qed.

Lemma inside_lt i n j : inside owner i n j -> i < j.
Proof. intros H. induction H as [j Ho|j k m Ho _ IH]; apply owner_lt in Ho; lia. Qed.

(** ** One level *)
Lemma happens_label q j e : hap q j e -> exists l, nth_error ls q = Some (j, l).
Proof. intros (l & _ & _ & _ & H & _). eauto. Qed.

Lemma begins_first j i n q e : owner j = Some (i, n) -> hap q j e -> e <> EDestroyed -> exists b, hap b i (EBegin n) /\ hb b q.
Proof.
  intros Ho Hq He. destruct (ticked_before cs Hwf home z ls wend Hrun q j e 0 Hq He) as (t & l & Ht & Hn & Htl & B).
  - lia.
  - intros [[]|[m []]].
  - pose proof (proj1 (at_step _ _ _ Hn) i n Ho (tick_not_env _ _ Htl)) as R. apply run_fut in R.
    destruct (event_found t i (EBegin n)) as (b & Hb & Hb').
    { apply trace_in. apply (begun_log _ _ n (Hinv t i)). now rewrite R. }
    exists b. split; [exact Hb'|]. apply (hb_then b t q); [|exact B].
    destruct (begin_thread b i n Hb') as (a & Ha & Ta). destruct (tick_client cs home z ls wend t j l Hn Htl) as (a' & Ha' & Ta').
    rewrite (proj2 (owner_lt j i n Ho)) in Ta'. apply t_step. split; [exact Hb|]. left. eauto 10.
Qed.

Lemma ends_last j i n o q d e : owner j = Some (i, n) -> hap q j e -> e <> EDestroyed -> nth_error ls d = Some (i, LEnd n o) -> q < d -> hb q d.
Proof.
  intros Ho Hq He Hd Hl.
  destruct (rests_after cs Hwf home z ls wend Hrun q j e d Hq Hl) as (k & Hk & (a & Ha & Ta) & Bk); [exact (owned_quiet j i n o d d Ho Hd (le_n d))|].
  rewrite (proj2 (owner_lt j i n Ho)) in Ta.
  assert (B : hb k d).
  { apply t_step. split; [lia|]. left. exists a, (i, LEnd n o), (job_thread cs home i n). auto. }
  destruct Bk as [->|Bk]; [exact B|]. eapply t_trans; eassumption.
Qed.

Lemma over_at_rest p t k m : hap p k (EBegin m) -> p < t -> not_in_progress (St t k) ->
  exists d o, p < d < t /\ nth_error ls d = Some (k, LEnd m o).
Proof.
  intros Hp Hl R. pose proof (begun_later (S p) t k m Hl (begin_begun p k m Hp)) as B.
  destruct (s_fut (St t k) m) eqn:F; try discriminate.
  - exfalso. apply (rest_not_busy _ (Hwf k) z _ (Hreach t k) R). right. exists m. rewrite F. exact I.
  - destruct (end_found t k m) as (d & o' & Hd & Hn); [now rewrite F|]. exists d, o'. split; [|exact Hn]. split; [|exact Hd].
    destruct (Nat.le_gt_cases d p) as [H|H]; [|exact H]. exfalso. destruct (end_over _ _ _ _ Hn) as [Hov _].
    pose proof (over_later (S d) (S p) k m ltac:(lia) Hov) as G. rewrite (begin_runs p k m Hp) in G. discriminate.
Qed.

(** ** Any depth *)
Lemma deep_begin i n j q e : inside owner i n j -> hap q j e -> e <> EDestroyed -> exists b, hap b i (EBegin n) /\ hb b q.
Proof.
  intros H. revert q e. induction H as [j Ho|j k m Ho _ IH]; intros q e Hq He; [eapply begins_first; eassumption|].
  destruct (begins_first j k m q e Ho Hq He) as (b & Hb & B). destruct (IH b (EBegin m) Hb) as (b' & Hb' & B'); [discriminate|].
  exists b'. split; [exact Hb'|]. eapply t_trans; eassumption.
Qed.

Lemma deep_end i n j : inside owner i n j -> forall q e d o, hap q j e -> e <> EDestroyed -> nth_error ls d = Some (i, LEnd n o) -> hb q d.
Proof.
  intros H. induction H as [j Ho|j k m Ho Hin IH]; intros q e d o Hq He Hd.
  - assert (Hl : q < d).
    { destruct (happens_label q j e Hq) as [l Hl]. destruct (Nat.lt_total q d) as [G|[G|G]]; [exact G| |].
      - exfalso. subst d. rewrite Hl in Hd. inversion Hd. subst. destruct (owner_lt _ _ _ Ho). lia.
      - exfalso. destruct (ticked_before cs Hwf home z ls wend Hrun q j e d Hq He) as (t & l' & Ht & Hn & Htl & _); [lia| |].
        + apply (rest_not_busy _ (Hwf j) z _ (Hreach d j)). exact (owned_quiet j i n o d d Ho Hd (le_n d)).
        + pose proof (proj1 (at_step _ _ _ Hn) i n Ho (tick_not_env _ _ Htl)) as R. apply run_fut in R.
          assert (t <> d) by (intros ->; rewrite Hn in Hd; inversion Hd; subst; destruct (owner_lt _ _ _ Ho); lia).
          destruct (end_over _ _ _ _ Hd) as [Hov _]. pose proof (over_later (S d) t i n ltac:(lia) Hov) as X. rewrite R in X. discriminate. }
    eapply ends_last; eassumption.
  - destruct (begins_first j k m q e Ho Hq He) as (b & Hb & B). apply hb_forward in B.
    assert (Qk : forall t, d <= t -> not_in_progress (St t k)) by exact (contained_quiet i n k o d Hin Hd).
    assert (Hbd : b < d) by (apply (hb_forward cs home z ls); exact (IH b (EBegin m) d o Hb ltac:(discriminate) Hd)).
    destruct (over_at_rest b d k m Hb Hbd (Qk d (le_n d))) as (d' & o' & Hd' & Hn').
    assert (Hl : q < d').
    { destruct (happens_label q j e Hq) as [l Hl]. destruct (Nat.lt_total q d') as [G|[G|G]]; [exact G| |].
      - exfalso. subst d'. rewrite Hl in Hn'. inversion Hn'. subst. destruct (owner_lt _ _ _ Ho). lia.
      - exfalso. destruct (ticked_before cs Hwf home z ls wend Hrun q j e d' Hq He) as (t & l' & Ht & Hn & Htl & _); [lia| |].
        + apply (rest_not_busy _ (Hwf j) z _ (Hreach d' j)). exact (owned_quiet j k m o' d' d' Ho Hn' (le_n d')).
        + pose proof (proj1 (at_step _ _ _ Hn) k m Ho (tick_not_env _ _ Htl)) as R. apply run_fut in R.
          assert (t <> d') by (intros ->; rewrite Hn in Hn'; inversion Hn'; subst; destruct (owner_lt _ _ _ Ho); lia).
          destruct (end_over _ _ _ _ Hn') as [Hov _]. pose proof (over_later (S d') t k m ltac:(lia) Hov) as X. rewrite R in X. discriminate. }
    eapply t_trans; [exact (ends_last j k m o' q d' e Ho Hq He Hn' Hl)|].
    destruct (end_over _ _ _ _ Hn') as [_ Hd1]. exact (IH d' (EEnd m o') d o Hd1 ltac:(discriminate) Hd).
Qed.

Theorem nested_inside i n j q e : inside owner i n j -> hap q j e -> e <> EDestroyed ->
  (exists b, hap b i (EBegin n) /\ hb b q) /\ (forall d o, hap d i (EEnd n o) -> hb q d).
Proof.
  intros H Hq He. split; [eapply deep_begin; eassumption|]. intros d o Hd. apply (deep_end i n j H q e d o Hq He). apply end_label. exact Hd.
Qed.

(** ** Before or after a job *)
Lemma thread0 p i e : c_threads (cs i) = 0 -> hap p i e -> client cs home ls i p.
Proof.
  intros H0 (l & w & w' & new & Hn & Wp & Wp' & En & Hin). apply (at_st cs z ls wend Hrun) in Wp, Wp'. subst w w'.
  destruct (event_thread cs Hwf home z ls wend Hrun p i l _ new Hn En Hin) as (_ & _ & E). exists (i, l). split; [exact Hn|].
  rewrite E. f_equal. unfold on_thread. rewrite H0. destruct e; reflexivity.
Qed.

Lemma one_at_0 t i m n : c_threads (cs i) = 0 -> s_fut (St t i) m = FRunning -> s_fut (St t i) n = FRunning -> m = n.
Proof.
  intros H0 Hm Hn. apply run_fut in Hm, Hn.
  destruct (running_meaning (cs i) z (St t i) (trace (St t i)) [] m (Hwf i) (Hreach t i)) as [ND _]; [now rewrite app_nil_r|].
  pose proof (proj2 (concurrency_bound (cs i) z (St t i) (trace (St t i)) [] (Hwf i) (Hreach t i) ltac:(now rewrite app_nil_r)) H0) as B.
  destruct (running (trace (St t i))) as [|a [|b r]]; cbn in *; try lia; try contradiction.
Qed.

Lemma after_begin (loc : Type) (touches : nid -> loc -> access -> Prop) i n b p e l k k' :
  disciplined loc touches (cs i) -> hap b i (EBegin n) -> hap p i e -> touches n l k -> may_access loc touches e l k' -> conflict k k' ->
  (p = b \/ hb p b) \/ exists d o, nth_error ls d = Some (i, LEnd n o) /\ (d = p \/ hb d p).
Proof.
  intros D Hb Hp Tn Ae Hc. destruct (Nat.eq_dec (c_threads (cs i)) 0) as [H0|H0].
  - pose proof (thread0 b i _ H0 Hb) as Cb. pose proof (thread0 p i _ H0 Hp) as Cp.
    destruct (Nat.lt_total p b) as [G|[G|G]]; [left; right; eapply hb_clients; eassumption|auto|]. right.
    destruct (over (s_fut (St p i) n)) eqn:Ov.
    + destruct (end_found p i n Ov) as (d & o & Hd & Hn). exists d, o. split; [exact Hn|]. right.
      destruct (end_over _ _ _ _ Hn) as [_ He]. eapply hb_clients; [exact Hd|exact (thread0 d i _ H0 He)|exact Cp].
    + pose proof (begun_later (S b) p i n G (begin_begun b i n Hb)) as B.
      destruct (s_fut (St p i) n) eqn:F; try discriminate. exists p.
      destruct Hp as (lp & w & w' & new & Hn & Wp & Wp' & En & Hin). apply (at_st cs z ls wend Hrun) in Wp, Wp'. subst w w'.
      destruct (Hstep _ _ _ Hn) as [Es _].
      destruct (env_label lp) eqn:El.
      * destruct lp; try discriminate.
        -- exfalso. cbn in Es. pose proof (k_kind _ _ _ _ (i_core _ _ (Hinv p i)) n0) as K. unfold deferred in K. rewrite H0 in K. cbn in K.
           destruct (s_fut (St p i) n0); congruence.
        -- exists o. split; [|auto]. rewrite Hn. do 3 f_equal. apply (one_at_0 p i n0 n H0); [|exact F].
           cbn in Es. destruct (s_fut (St p i) n0); try discriminate. reflexivity.
        -- exfalso. cbn in Es. inversion Es as [Ez]. rewrite <- Ez in En. unfold trace in En. cbn in En.
           rewrite <- (app_nil_r (rev (s_log (St p i)))) in En at 1. apply app_inv_head in En. subst new. destruct Hin.
      * exfalso. apply run_fut in F. pose proof (control_thread_in_job (cs i) z (St p i) n lp (Hwf i) (Hreach p i) H0 F El). congruence.
  - destruct (happens_pos cs Hwf z ls wend Hrun b i _ Hb) as (x & Bx & Hx). destruct (happens_pos cs Hwf z ls wend Hrun p i _ Hp) as (y & Py & Hy).
    pose proof (proj2 (world_alone cs z ls wend i Hrun)) as HR.
    assert (An : may_access loc touches (EBegin n) l k) by (right; exists n; split; [reflexivity|exact Tn]).
    assert (Hc' : conflict k' k) by (destruct Hc; [right|left]; assumption).
    destruct (Nat.lt_total y x) as [G|[G|G]].
    + left. eapply lift; try eassumption. eapply (accesses_ordered loc touches (cs i) z (wend i) y x); eassumption || auto.
    + subst y. pose proof Hx as Hx'. unfold at_pos in Hx', Hy. rewrite Hy in Hx'. inversion Hx'; subst e. left. left. eapply same_begin; eassumption.
    + right. assert (HB : happens_before (cs i) (trace (wend i)) x y) by (eapply (accesses_ordered loc touches (cs i) z (wend i) x y); eassumption || auto).
      assert (X : exists v, precedes (cs i) (trace (wend i)) x v /\ (v = y \/ happens_before (cs i) (trace (wend i)) v y)).
      { apply clos_trans_t1n in HB. inversion HB as [? A|v ? A A']; subst; [eauto|]. exists v. split; [exact A|]. right. now apply clos_t1n_trans. }
      destruct X as (v & (Hl & e1 & e2 & H1 & H2 & H) & Hv). unfold at_pos in H1, Hx. rewrite Hx in H1. inversion H1; subst e1.
      destruct H as [H|H]; [|destruct e2; contradiction].
      assert (E2 : exists o, e2 = EEnd n o).
      { unfold on_thread in H. rewrite (proj2 (Nat.eqb_neq _ 0) H0) in H. destruct e2; try discriminate; inversion H; subst; [|eauto].
        exfalso. pose proof (uniq_begin _ z _ (Hwf i) HR _ _ _ Hx H2). lia. }
      destruct E2 as [o ->]. destruct (find_step cs z ls wend Hrun i v) as [d Hd]; [apply nth_error_Some; unfold at_pos in H2; congruence|].
      destruct (in_step_happens cs Hwf z ls wend Hrun d i v _ Hd H2) as [Hde _].
      exists d, o. split; [apply end_label; exact Hde|].
      destruct Hv as [->|Hv]; [|eapply lift; eassumption].
      assert (e = EEnd n o) by (unfold at_pos in H2, Hy; congruence). subst e. left.
      destruct Hd as [D1 D2], Py as [P1 P2]. destruct (Nat.lt_total d p) as [Q|[Q|Q]]; [|exact Q|]; exfalso.
      * destruct (st_prefix cs Hwf z ls wend Hrun (S d) i (p - S d)) as [new E]. replace (S d + (p - S d)) with p in E by lia. rewrite E, app_length in P1. lia.
      * destruct (st_prefix cs Hwf z ls wend Hrun (S p) i (d - S p)) as [new E]. replace (S p + (d - S p)) with d in E by lia. rewrite E, app_length in D1. lia.
Qed.

Lemma two_begins b i m n : hap b i (EBegin m) -> hap b i (EBegin n) -> m = n.
Proof.
  intros Hm Hn. destruct (Nat.eq_dec (c_threads (cs i)) 0) as [H0|H0].
  - apply (one_at_0 (S b) i m n H0); apply begin_runs; assumption.
  - assert (L : forall k, hap b i (EBegin k) -> nth_error ls b = Some (i, LBegin k)).
    { intros k (l & w & w' & new & Hl & Wp & Wp' & En & Hin). apply (at_st cs z ls wend Hrun) in Wp, Wp'. subst w w'.
      destruct (event_thread cs Hwf home z ls wend Hrun b i l _ new Hl En Hin) as (E & _). now rewrite <- (E k eq_refl H0). }
    apply L in Hm, Hn. congruence.
Qed.

(** ** The family of two executions *)
Definition within (a' a : nat) : Prop := a = a' \/ exists n, inside owner a' n a.
Lemma inside_child k m a : inside owner k m a -> exists a', owner a' = Some (k, m) /\ within a' a.
Proof.
  intros H. induction H as [j Ho|j i n Ho _ (a' & Ha & W)].
  - exists j. split; [exact Ho|left; reflexivity].
  - exists a'. split; [exact Ha|]. right. destruct W as [->|[n' W]]; [exists n; apply inside_job; exact Ho|].
    exists n'. eapply inside_nested; eassumption.
Qed.
Lemma within_le a' a : within a' a -> a' <= a.
Proof. intros [->|[n H]]; [auto|]. apply inside_lt in H. lia. Qed.
Lemma within_owner a' k b n : within a' k -> owner b = Some (k, n) -> exists m, inside owner a' m b.
Proof. intros [->|[m H]] Ho; [exists n; now apply inside_job|exists m; eapply inside_nested; eassumption]. Qed.
Lemma root_of a : exists r, owner r = None /\ within r a.
Proof.
  induction a as [a IH] using lt_wf_ind. destruct (owner a) as [[k n]|] eqn:E.
  - destruct (IH k) as (r & Hr & W); [apply (owner_lt a k n E)|]. exists r. split; [exact Hr|]. right. eapply within_owner; eassumption.
  - exists a. split; [exact E|left; reflexivity].
Qed.

Definition family (a b : nat) : Prop :=
  a = b \/ (exists n, inside owner a n b) \/ (exists n, inside owner b n a) \/
  (exists c m n, m <> n /\ inside owner c m a /\ inside owner c n b) \/
  (exists a' b', a' <> b' /\ owner a' = owner b' /\ within a' a /\ within b' b).
Lemma family_sym a b : family a b -> family b a.
Proof.
  intros [->|[H|[H|[(c & m & n & H & H1 & H2)|(a' & b' & H & H1 & H2 & H3)]]]].
  - left. reflexivity.
  - right; right; left. exact H.
  - right; left. exact H.
  - right; right; right; left. exists c, n, m. auto.
  - right; right; right; right. exists b', a'. auto.
Qed.
Lemma families : forall s a b, a + b <= s -> family a b.
Proof.
  induction s as [|s IH]; intros a b Hs.
  { left. lia. }
  assert (G : forall a b, a + b <= S s -> a < b -> family a b).
  { clear a b Hs. intros a b Hs Hl. destruct (owner b) as [[k n]|] eqn:E.
    - pose proof (proj1 (owner_lt b k n E)) as Hk.
      destruct (IH a k ltac:(lia)) as [->|[[m H]|[[m H]|[(c & m & m' & H & H1 & H2)|(a' & b' & H & H1 & H2 & H3)]]]].
      + right; left. exists n. now apply inside_job.
      + right; left. exists m. eapply inside_nested; eassumption.
      + destruct (Nat.eq_dec m n) as [->|Hmn].
        * destruct (inside_child k n a H) as (a' & Ha & W). right; right; right; right. exists a', b.
          apply within_le in W as W'. split; [lia|]. split; [congruence|]. split; [exact W|left; reflexivity].
        * right; right; right; left. exists k, m, n. split; [exact Hmn|]. split; [exact H|now apply inside_job].
      + right; right; right; left. exists c, m, m'. split; [exact H|]. split; [exact H1|eapply inside_nested; eassumption].
      + right; right; right; right. exists a', b'. split; [exact H|]. split; [exact H1|]. split; [exact H2|]. right. eapply within_owner; eassumption.
    - destruct (root_of a) as (r & Hr & W). right; right; right; right. exists r, b. apply within_le in W as W'.
      split; [lia|]. split; [congruence|]. split; [exact W|left; reflexivity]. }
  destruct (Nat.lt_total a b) as [H|[H|H]]; [auto|left; exact H|]. apply family_sym. apply G; lia.
Qed.

(** ** Executions made at the same place *)
Let sib (i j : nat) : Prop := owner i = owner j.
Lemma sib_sym' i j : sib i j -> sib j i.
Proof. unfold sib. auto. Qed.
Lemma sib_home' i j : sib i j -> home i = home j.
Proof. intros H. unfold sib in H. pose proof (Hhome i) as A. pose proof (Hhome j) as B. rewrite H in A. destruct (owner j) as [[k n]|]; [destruct A, B|]; congruence. Qed.
Lemma sib_rest' t j l i : nth_error ls t = Some (j, l) -> tick_label (St t j) l -> i <> j -> sib i j -> not_in_progress (St t i).
Proof. intros H Ht Hn Hs. exact (proj2 (proj2 (at_step _ _ _ H)) i Hs Hn Ht). Qed.

Definition stands (a' pp a p : nat) (e : event) : Prop :=
  exists ee, hap pp a' ee /\ ee <> EDestroyed /\
    ((a' = a /\ pp = p) \/ exists n, inside owner a' n a /\ ee = EBegin n /\ hb pp p).
Lemma stands_for a' a p e : within a' a -> hap p a e -> e <> EDestroyed -> exists pp, stands a' pp a p e.
Proof.
  intros [->|[n H]] Hp He.
  - exists p, e. auto.
  - destruct (deep_begin a' n a p e H Hp He) as (b & Hb & B). exists b, (EBegin n). split; [exact Hb|]. split; [discriminate|]. right. eauto.
Qed.

Lemma trees a' b' a b pp qq p q e e' : a' <> b' -> owner a' = owner b' ->
  stands a' pp a p e -> stands b' qq b q e' -> hap p a e -> e <> EDestroyed -> pp < qq -> hb p q.
Proof.
  intros Hne Ho (ee & Hpp & Hee & Sa) (ee' & Hqq & Hee' & Sb) Hp He Hl.
  assert (B : hb p qq).
  { destruct Sa as [[<- <-]|(n & Hin & -> & B)].
    - apply (sib_successive cs Hwf home z ls wend Hrun sib sib_sym' sib_home' sib_rest' pp qq a' b' ee ee'); auto.
    - destruct (turn_taken cs Hwf home z ls wend Hrun sib sib_sym' sib_home' sib_rest' pp qq a' b' _ _ Hne Ho Hl Hpp Hqq Hee Hee') as (t & l & Ht & Hn & Htl & _).
      destruct (over_at_rest pp t a' n Hpp) as (d & o & Hd & Hnd); [lia|exact (sib_rest' t b' l a' Hn Htl Hne Ho)|].
      eapply t_trans; [exact (deep_end a' n a Hin p e d o Hp He Hnd)|]. destruct (end_over _ _ _ _ Hnd) as [_ Hde].
      apply (sib_successive cs Hwf home z ls wend Hrun sib sib_sym' sib_home' sib_rest' d qq a' b' (EEnd n o) ee'); auto; [lia|discriminate]. }
  destruct Sb as [[_ <-]|(m & _ & _ & B')]; [exact B|]. eapply t_trans; eassumption.
Qed.

(** ** What later tasks see *)
Theorem nested_visible i n j q e a k q' e' : inside owner i n j -> hap q j e -> e <> EDestroyed ->
  clos_trans nid (runs_after (c_dag (cs i))) a n -> hap q' k e' -> e' <> EDestroyed ->
  (k = i /\ concerns e' a) \/ inside owner i a k -> hb q q'.
Proof.
  intros Hin Hq He Ha Hq' He' Hk.
  assert (X : exists r e1, hap r i e1 /\ concerns e1 a /\ (r = q' \/ hb r q')).
  { destruct Hk as [[-> C]|Hk]; [exists q', e'; auto|]. destruct (deep_begin i a k q' e' Hk Hq' He') as (b & Hb & B).
    exists b, (EBegin a). split; [exact Hb|]. split; [reflexivity|auto]. }
  destruct X as (r & e1 & Hr & C & B1). apply (hb_then q r q'); [|exact B1].
  destruct (deep_begin i n j q e Hin Hq He) as (b & Hb & B).
  destruct (happens_pos cs Hwf z ls wend Hrun r i _ Hr) as (y & Py & Hy).
  pose proof (proj2 (world_alone cs z ls wend i Hrun)) as HR.
  assert (Hend : exists o, In (EEnd n o) (trace (wend i))).
  { destruct (concerns_before _ z _ (Hwf i) HR y e1 a Hy C) as (x & er & Hx & _).
    destruct (before_records _ z _ (Hwf i) HR x er a n Hx Ha) as (u & er' & rr & v & _ & Hu & En).
    assert (HI : Inv (cs i) (wend i)) by (apply (r_inv _ z _ (Hwf i) HR)).
    assert (Hrec : recorded_l (s_log (wend i)) n).
    { exists rr. split; [|exact En]. apply recs_In. exists er', v. apply trace_in. eapply nth_error_In. exact Hu. }
    assert (Hbg : begun (s_fut (wend i) n) = true).
    { apply (begun_log _ _ n HI). apply trace_in. destruct (happens_pos cs Hwf z ls wend Hrun b i _ Hb) as (w & _ & Hw). eapply nth_error_In. exact Hw. }
    destruct (s_fut (wend i) n) eqn:F; try discriminate.
    - exfalso. apply (proj1 (k_ok _ _ _ _ (i_core _ _ HI) n ltac:(rewrite F; exact I)) Hrec).
    - destruct (proj2 (over_log _ _ n HI) ltac:(now rewrite F)) as [o' Ho]. exists o'. now apply trace_in. }
  destruct Hend as [o Ho]. apply In_nth_error in Ho. destruct Ho as [v Hv].
  destruct (find_step cs z ls wend Hrun i v) as [d Hd]; [apply nth_error_Some; congruence|].
  destruct (in_step_happens cs Hwf z ls wend Hrun d i v _ Hd Hv) as [Hde _].
  apply (hb_then q d r).
  - apply (deep_end i n j Hin q e d o Hq He). apply end_label. exact Hde.
  - apply (lift cs Hwf home z ls wend Hrun d r i v y); [|exact Hd|exact Py].
    exact (ordered_tasks _ z _ (Hwf i) HR v y _ _ n a Ha Hv Hy eq_refl C).
Qed.

(** ** No data race *)
Variable loc : Type.
Variable touches : nat -> nid -> loc -> access -> Prop.
Hypothesis Henc : enclosed owner loc touches.
Hypothesis Hdisc : forall i, disciplined loc (touches i) (cs i).

Lemma uses_up i n j e l k : inside owner i n j -> uses owner loc touches j e l k -> touches i n l k.
Proof.
  intros H. revert e. induction H as [j Ho|j i' m Ho _ IH]; intros e U.
  - destruct U as [(m & _ & T)|[_ T]]; [exact (Henc j i n m l k Ho T)|]. now rewrite Ho in T.
  - apply (IH (EBegin m)). left. exists m. split; [reflexivity|]. destruct U as [(m' & _ & T)|[_ T]]; [exact (Henc j i' m m' l k Ho T)|]. now rewrite Ho in T.
Qed.
Lemma uses_may j e l k : uses owner loc touches j e l k -> may_access loc (touches j) e l k.
Proof. intros [H|[H _]]; [right; exact H|left; exact H]. Qed.

Lemma conflict_sym k k' : conflict k k' -> conflict k' k.
Proof. intros [H|H]; [right|left]; exact H. Qed.

Lemma job_against a n b p q e e' l k k' : inside owner a n b -> hap p a e -> hap q b e' -> e' <> EDestroyed ->
  uses owner loc touches a e l k -> uses owner loc touches b e' l k' -> conflict k k' -> hb p q \/ hb q p.
Proof.
  intros Hin Hp Hq He' Ua Ub Hc. destruct (deep_begin a n b q e' Hin Hq He') as (b0 & Hb0 & B0).
  destruct (after_begin loc (touches a) a n b0 p e l k' k (Hdisc a) Hb0 Hp (uses_up a n b e' l k' Hin Ub) (uses_may _ _ _ _ Ua) (conflict_sym _ _ Hc))
    as [H|(d & o & Hd & H)].
  - left. eapply then_hb; eassumption.
  - right. eapply hb_then; [exact (deep_end a n b Hin q e' d o Hq He' Hd)|]. exact H.
Qed.

Theorem nested_no_race p q : ~ nested_race cs owner loc touches home z ls p q.
Proof.
  intros (a & b & e & e' & l & k & k' & Hp & Hq & He & He' & Ua & Ub & Hc & Hne & N1 & N2).
  destruct (families _ a b (le_n _)) as [<-|[[n H]|[[n H]|[(c & m & n & Hmn & H1 & H2)|(a' & b' & H & Ho & H2 & H3)]]]].
  - destruct (same_ordered cs Hwf home z ls wend Hrun loc (touches a) a p q e e' l k k' (Hdisc a) Hp Hq (uses_may _ _ _ _ Ua) (uses_may _ _ _ _ Ub) Hc) as [H|[H|H]]; auto.
  - destruct (job_against a n b p q e e' l k k' H Hp Hq He' Ua Ub Hc); auto.
  - destruct (job_against b n a q p e' e l k' k H Hq Hp He Ub Ua (conflict_sym _ _ Hc)); auto.
  - destruct (deep_begin c m a p e H1 Hp He) as (bm & Hbm & Bm). destruct (deep_begin c n b q e' H2 Hq He') as (bn & Hbn & Bn).
    pose proof (uses_up c m a e l k H1 Ua) as Tm. pose proof (uses_up c n b e' l k' H2 Ub) as Tn.
    assert (Am : may_access loc (touches c) (EBegin m) l k) by (right; exists m; split; [reflexivity|exact Tm]).
    assert (An : may_access loc (touches c) (EBegin n) l k') by (right; exists n; split; [reflexivity|exact Tn]).
    destruct (after_begin loc (touches c) c n bn bm (EBegin m) l k' k (Hdisc c) Hbn Hbm Tn Am (conflict_sym _ _ Hc)) as [X|(d & o & Hd & X)].
    + destruct (after_begin loc (touches c) c m bm bn (EBegin n) l k k' (Hdisc c) Hbm Hbn Tm An Hc) as [Y|(d & o & Hd & Y)].
      * destruct X as [->|X]; [exact (Hmn (two_begins bn c m n Hbm Hbn))|]. destruct Y as [->|Y]; [exact (Hmn (two_begins bm c m n Hbm Hbn))|].
        apply hb_forward in X, Y. lia.
      * apply N1. eapply t_trans; [|exact Bn]. eapply hb_then; [exact (deep_end c m a H1 p e d o Hp He Hd)|exact Y].
    + apply N2. eapply t_trans; [|exact Bm]. eapply hb_then; [exact (deep_end c n b H2 q e' d o Hq He' Hd)|exact X].
  - destruct (stands_for a' a p e H2 Hp He) as (pp & Sp). destruct (stands_for b' b q e' H3 Hq He') as (qq & Sq).
    destruct (Nat.lt_total pp qq) as [G|[G|G]].
    + apply N1. exact (trees a' b' a b pp qq p q e e' H Ho Sp Sq Hp He G).
    + subst qq. destruct Sp as (x & X & _), Sq as (y & Y & _). apply happens_label in X, Y. destruct X as [lx X], Y as [ly Y]. congruence.
    + apply N2. exact (trees b' a' b a qq pp q p e' e (not_eq_sym H) (eq_sym Ho) Sq Sp Hq He' G).
Qed.
End Nests.
