(** The invariant of the transition function of Model/Exec.v. *)
From Coq Require Import Lia String Permutation.
From Verif Require Import Model.Common Model.Records Model.Jobs Model.TaskSet Model.Dag
     Model.Sched Model.Exec Spec.Graph Spec.Trace
     Proofs.Sets Proofs.SchedFacts Proofs.InvalFacts Proofs.TraceFacts.
Open Scope nat_scope.
Open Scope list_scope.

(** * When may an event happen, given the events before it (newest first)? *)

Section Inv.
Variable c : config.
Let d := c_dag c.
Let ids := node_ids (c_dag c).

Definition before_l (log : list event) (n : nid) : Prop := exists er, In (EBeforeRun er n) log.
Definition ended_l (log : list event) (n : nid) : Prop := exists o, In (EEnd n o) log.
Definition runlog_l (log : list event) (n : nid) : Prop := exists t, In (ERunLog n t) log.
Definition after_recorded (log : list event) (n : nid) : Prop :=
  forall m, runs_after d n m -> recorded_l log m.
(** no recorded requirement of [n] is bad *)
Definition deps_ok (log : list event) (n : nid) : Prop :=
  forall m r, requires d n m -> In r (recs log) -> r_node r = m -> is_bad (r_status r) = false.
Definition asked (log : list event) : Prop :=
  forall n, In n ids -> In (EEnque n) log /\ exists v t, In (EInval n v t) log.
Definition startup_done (log : list event) : Prop :=
  asked log /\ forall n, In n ids -> Invalidated c n -> ~ job_invalidated c n ->
                        exists m, In (EDepInval n m) log.

Definition is_enque (e : event) : bool := match e with EEnque _ => true | _ => false end.
Definition is_jobinv (e : event) : bool :=
  match e with EEnque _ | EAsk _ | EInval _ _ _ => true | _ => false end.
Definition is_startup (e : event) : bool :=
  match e with EEnque _ | EAsk _ | EInval _ _ _ | EDepInval _ _ => true | _ => false end.

Definition rec_ok (log : list event) (r : run_record) : Prop :=
  let n := r_node r in
  r_task r = node_task d n /\ r_name r = node_name d n /\
  match r_status r with
  | DEPF => (exists m r', requires d n m /\ In r' (recs log) /\ r_node r' = m
                          /\ is_bad (r_status r') = true)
            /\ ~ In (ELaunch n) log /\ r_retcode r = 0%Z /\ r_output r = []
  | SKIP => ~ Invalidated c n /\ deps_ok log n /\ ~ In (ELaunch n) log
            /\ r_retcode r = 0%Z /\ r_output r = []
  | OK | FAIL =>
      Invalidated c n /\ In (ELaunch n) log /\
      (forall m r', requires d n m -> runs_after d n m -> In r' (recs log) -> r_node r' = m ->
                    is_bad (r_status r') = false) /\
      exists o, In (EEnd n o) log /\ r_retcode r = rr_retcode (run_lambda o)
                /\ r_output r = rr_output (run_lambda o)
                /\ In (ERunLog n (rr_log (run_lambda o))) log
                /\ (r_status r = FAIL <-> r_retcode r <> 0%Z)
  end.

Definition disjoint_res (n m : nid) : Prop :=
  forall r, In r (node_res c n) -> In r (node_res c m) -> False.

Definition ev_cond (log : list event) (e : event) : Prop :=
  match e with
  | EEnque n => In n ids /\ ~ In (EEnque n) log /\ Forall (fun x => is_enque x = true) log
  | ECycle l => is_cycle d l /\ Forall (fun x => is_enque x = true) log
                /\ forall n, In n ids -> In (EEnque n) log
  | EInval n v t =>
      In n ids /\ (forall v' t', ~ In (EInval n v' t') log)
      /\ Forall (fun x => is_jobinv x = true) log
      /\ ((forall n, In n ids -> In (EEnque n) log) /\ acyclic d)
      /\ (exists b, c_inval c n = IvRet b t /\ v = (if b then INVALID else VALID))
      /\ exists l, log = EAsk n :: l
  | EDepInval n m =>
      inval_by d n m /\ ~ job_invalidated c n /\ Invalidated c n /\ Invalidated c m
      /\ Forall (fun x => is_startup x = true) log /\ asked log
      /\ ((exists t, In (EInval m INVALID t) log) \/ exists p, In (EDepInval m p) log)
      /\ S (dep_reports n m log) <= inval_edges d n m
  | EOnTick er => accounts c (recs log) er /\ startup_done log
                  /\ exists n, In n ids /\ ~ before_l log n
  | EBeforeRun er n =>
      accounts c (recs log) er /\ startup_done log /\ In n ids /\ ~ before_l log n
      /\ ~ recorded_l log n /\ ~ In (ELaunch n) log /\ after_recorded log n
  | ELaunch n => before_l log n /\ ~ In (ELaunch n) log /\ ~ recorded_l log n
                 /\ after_recorded log n /\ Invalidated c n /\ In n ids /\ deps_ok log n
  | EBegin n => In (ELaunch n) log /\ ~ In (EBegin n) log /\ ~ recorded_l log n
                /\ after_recorded log n
                /\ (forall m, In m (run_l log) -> disjoint_res n m)
                /\ S (List.length (run_l log)) <= Nat.max 1 (c_threads c)
  | EEnd n o => In (EBegin n) log /\ ~ ended_l log n /\ ~ recorded_l log n
  | ETimeout n => In (ELaunch n) log /\ ~ ended_l log n
  | ERunLog n t => ~ runlog_l log n /\ ~ recorded_l log n /\ before_l log n
                   /\ exists o, In (EEnd n o) log /\ t = rr_log (run_lambda o)
  | EAfterRun er r x =>
      accounts c (recs log) er /\ In (r_node r) ids /\ before_l log (r_node r)
      /\ ~ recorded_l log (r_node r) /\ after_recorded log (r_node r) /\ rec_ok log r
      /\ In x ids /\ (c_threads c <= 1 -> x = r_node r)
  | EAfterExec er => accounts c (recs log) er /\ forall n, In n ids -> recorded_l log n
  | EDestroyed => forall n, In (ELaunch n) log -> ended_l log n
  | EAsk n =>
      In n ids /\ ~ In (EAsk n) log /\ Forall (fun x => is_jobinv x = true) log
      /\ ((forall n, In n ids -> In (EEnque n) log) /\ acyclic d)
      /\ (forall m, In (EAsk m) log -> exists v t, In (EInval m v t) log)
      /\ node_has_job c n = true
  end.

Definition ev_ok (log : list event) (e : event) : Prop :=
  ev_cond log e /\ ~ In EDestroyed log /\
  (forall er, In (EAfterExec er) log -> e = EDestroyed).

Fixpoint log_ok (log : list event) : Prop :=
  match log with
  | [] => True
  | e :: l => ev_ok l e /\ log_ok l
  end.

Lemma log_ok_app a l : log_ok (a ++ l) -> log_ok l.
Proof. induction a as [|e a IH]; intros H; [exact H|]. apply IH, H. Qed.

(** * Futures and the log: holds in every reachable state *)

Definition unfin (f : fstate) : Prop :=
  match f with FDeferred | FPending | FRunning => True | _ => False end.

Definition fut_log (f : fstate) (n : nid) (log : list event) : Prop :=
  match f with
  | FNone => ~ In (ELaunch n) log /\ ~ In (EBegin n) log /\ forall o, ~ In (EEnd n o) log
  | FDeferred | FPending =>
      In (ELaunch n) log /\ ~ In (EBegin n) log /\ forall o, ~ In (EEnd n o) log
  | FRunning => In (ELaunch n) log /\ In (EBegin n) log /\ forall o, ~ In (EEnd n o) log
  | FReady o => In (ELaunch n) log /\ In (EBegin n) log /\ In (EEnd n o) log
                /\ forall o', In (EEnd n o') log -> o' = o
  end.

(** the coroutine of [n] waits for its job *)
Definition waits (n : nid) (lv : list coro) : Prop := exists rec, In (Coro n (CWait rec)) lv.

Record Core (fut : nid -> fstate) (log : list event) (lv : list coro) : Prop := {
  k_log : log_ok log;
  k_fut : forall n, fut_log (fut n) n log;
  k_unfin : forall n, unfin (fut n) -> waits n lv;
  k_ok : forall n, unfin (fut n) -> ~ recorded_l log n /\ after_recorded log n;
  k_disj : forall n m, unfin (fut n) -> unfin (fut m) -> n <> m -> disjoint_res n m;
  k_bound : List.length lv <= Nat.max 1 (c_threads c);
  k_nodup : NoDup (run_l log);
  k_run : forall n, In n (run_l log) <-> fut n = FRunning;
  k_kind : forall n, if deferred c then fut n <> FPending else fut n <> FDeferred;
  k_ids : forall n, fut n <> FNone -> In n ids
}.

Definition job_event (e : event) : bool :=
  match e with ELaunch _ | EBegin _ | EEnd _ _ => true | _ => false end.

Lemma fut_log_neutral f n e log :
  job_event e = false -> fut_log f n log -> fut_log f n (e :: log).
Proof.
  intros He H.
  assert (H1 : In (ELaunch n) (e :: log) <-> In (ELaunch n) log).
  { cbn. split; [intros [->|?]; [discriminate|assumption]|auto]. }
  assert (H2 : In (EBegin n) (e :: log) <-> In (EBegin n) log).
  { cbn. split; [intros [->|?]; [discriminate|assumption]|auto]. }
  assert (H3 : forall o, In (EEnd n o) (e :: log) <-> In (EEnd n o) log).
  { intros o. cbn. split; [intros [->|?]; [discriminate|assumption]|auto]. }
  destruct f; cbn [fut_log] in *; rewrite ?H1, ?H2; repeat setoid_rewrite H3; exact H.
Qed.

Lemma fut_log_other f n e log :
  e <> ELaunch n -> e <> EBegin n -> (forall o, e <> EEnd n o) ->
  fut_log f n log -> fut_log f n (e :: log).
Proof.
  intros E1 E2 E3 H.
  assert (H1 : In (ELaunch n) (e :: log) <-> In (ELaunch n) log).
  { cbn. split; [intros [->|?]; [congruence|assumption]|auto]. }
  assert (H2 : In (EBegin n) (e :: log) <-> In (EBegin n) log).
  { cbn. split; [intros [->|?]; [congruence|assumption]|auto]. }
  assert (H3 : forall o, In (EEnd n o) (e :: log) <-> In (EEnd n o) log).
  { intros o. cbn. split; [intros [->|?]; [exfalso; eapply E3; reflexivity|assumption]|auto]. }
  destruct f; cbn [fut_log] in *; rewrite ?H1, ?H2; repeat setoid_rewrite H3; exact H.
Qed.

Lemma track_neutral e l : job_event e = false -> run_l (e :: l) = run_l l.
Proof. intros H. rewrite run_l_cons. destruct e; try discriminate; reflexivity. Qed.

Lemma not_recorded_after log er r x n :
  ~ recorded_l log n -> r_node r <> n -> ~ recorded_l (EAfterRun er r x :: log) n.
Proof.
  intros H Hne [r' [Hin E]]. rewrite recs_after in Hin. apply in_app_iff in Hin.
  destruct Hin as [Hin|[<-|[]]]; [|auto]. apply H. exists r'. auto.
Qed.

Lemma recorded_other e log n :
  is_after e = false -> recorded_l (e :: log) n <-> recorded_l log n.
Proof. intros H. unfold recorded_l. rewrite recs_other by exact H. reflexivity. Qed.

Lemma after_recorded_mono e log n : after_recorded log n -> after_recorded (e :: log) n.
Proof. intros H m Hm. apply recorded_mono, H, Hm. Qed.

Lemma core_emit fut log lv e :
  Core fut log lv -> ev_ok log e -> job_event e = false ->
  (forall er r x, e = EAfterRun er r x -> ~ unfin (fut (r_node r))) ->
  Core fut (e :: log) lv.
Proof.
  intros K He Hj Ha. constructor; try apply K.
  - split; [exact He|apply K].
  - intros n. apply fut_log_neutral; [exact Hj|apply K].
  - intros n Hn. destruct (k_ok _ _ _ K n Hn) as [H1 H2]. split.
    + destruct (is_after e) eqn:E.
      * destruct e; try discriminate. apply not_recorded_after; [exact H1|].
        intros <-. eapply Ha; eauto.
      * rewrite recorded_other by exact E. exact H1.
    + apply after_recorded_mono, H2.
  - rewrite track_neutral by exact Hj. apply K.
  - intros n. rewrite track_neutral by exact Hj. apply K.
Qed.

Lemma core_lv fut log lv lv' :
  Core fut log lv -> (forall n, unfin (fut n) -> waits n lv') ->
  List.length lv' <= Nat.max 1 (c_threads c) -> Core fut log lv'.
Proof. intros K H1 H2. constructor; try apply K; assumption. Qed.

Lemma upd_cases {A} (f : nid -> A) n v m : (m = n /\ upd f n v m = v) \/ (m <> n /\ upd f n v m = f m).
Proof.
  destruct (Nat.eq_dec m n) as [->|H]; [left|right]; (split; [assumption || reflexivity|]).
  - apply upd_same.
  - apply upd_other, H.
Qed.

Lemma core_launch fut log lv lv' n :
  Core fut log lv -> ev_ok log (ELaunch n) -> fut n = FNone ->
  waits n lv' -> (forall m, unfin (fut m) -> waits m lv') ->
  List.length lv' <= Nat.max 1 (c_threads c) ->
  (forall m, m <> n -> unfin (fut m) -> disjoint_res n m) ->
  Core (upd fut n (if deferred c then FDeferred else FPending)) (ELaunch n :: log) lv'.
Proof.
  intros K He Hf Hin Hlv' Hlen Hd.
  assert (Hnew : unfin (if deferred c then FDeferred else FPending)) by (destruct (deferred c); exact I).
  destruct He as [Hc He']. pose proof Hc as [Hb [Hnl [Hnr [Har [Hinv [Hids Hdep]]]]]].
  constructor.
  - split; [split; assumption|apply K].
  - intros m. destruct (upd_cases fut n (if deferred c then FDeferred else FPending) m) as [[-> ->]|[Hne ->]].
    + pose proof (k_fut _ _ _ K n) as Hn. rewrite Hf in Hn. cbn in Hn. destruct Hn as [H1 [H2 H3]].
      assert (G : In (ELaunch n) (ELaunch n :: log) /\ ~ In (EBegin n) (ELaunch n :: log)
                  /\ forall o, ~ In (EEnd n o) (ELaunch n :: log)).
      { split; [left; reflexivity|]. split.
        - intros [Hx|Hx]; [discriminate|auto].
        - intros o [Hx|Hx]; [discriminate|eapply H3; eauto]. }
      destruct (deferred c); exact G.
    + apply fut_log_other; try congruence. apply K.
  - intros m. destruct (upd_cases fut n (if deferred c then FDeferred else FPending) m) as [[-> ->]|[Hne ->]].
    + intros _. exact Hin.
    + apply Hlv'.
  - intros m. destruct (upd_cases fut n (if deferred c then FDeferred else FPending) m) as [[-> ->]|[Hne ->]].
    + intros _. split; [rewrite recorded_other by reflexivity; exact Hnr|apply after_recorded_mono, Har].
    + intros Hu. destruct (k_ok _ _ _ K m Hu) as [H1 H2].
      split; [rewrite recorded_other by reflexivity; exact H1|apply after_recorded_mono, H2].
  - intros m1 m2.
    destruct (upd_cases fut n (if deferred c then FDeferred else FPending) m1) as [[-> ->]|[Hne ->]];
    destruct (upd_cases fut n (if deferred c then FDeferred else FPending) m2) as [[-> ->]|[Hne2 ->]];
    intros H1 H2 Hne'.
    + congruence.
    + apply Hd; assumption.
    + intros r Hr1 Hr2. eapply Hd; eauto.
    + apply K; assumption.
  - exact Hlen.
  - rewrite run_l_cons. cbn. apply K.
  - intros m. rewrite run_l_cons. cbn.
    destruct (upd_cases fut n (if deferred c then FDeferred else FPending) m) as [[-> ->]|[Hne ->]].
    + rewrite (k_run _ _ _ K), Hf. split; [discriminate|destruct (deferred c); discriminate].
    + apply K.
  - intros m. pose proof (k_kind _ _ _ K m) as Hm.
    destruct (upd_cases fut n (if deferred c then FDeferred else FPending) m) as [[-> ->]|[Hne ->]];
      destruct (deferred c); try discriminate; assumption.
  - intros m. destruct (upd_cases fut n (if deferred c then FDeferred else FPending) m) as [[-> _]|[Hne ->]].
    + intros _. exact Hids.
    + apply K.
Qed.

Lemma core_begin fut log lv n :
  Core fut log lv -> fut n = FDeferred \/ fut n = FPending ->
  ~ In EDestroyed log -> (forall er, ~ In (EAfterExec er) log) ->
  Core (upd fut n FRunning) (EBegin n :: log) lv.
Proof.
  intros K Hf Hd Ha.
  assert (Hu : unfin (fut n)) by (destruct Hf as [-> | ->]; exact I).
  pose proof (k_fut _ _ _ K n) as Hn.
  assert (Hn' : In (ELaunch n) log /\ ~ In (EBegin n) log /\ forall o, ~ In (EEnd n o) log)
    by (destruct Hf as [E|E]; rewrite E in Hn; exact Hn).
  destruct Hn' as [H1 [H2 H3]].
  destruct (k_ok _ _ _ K n Hu) as [Hnr Har].
  constructor.
  - split; [|apply K]. split; [|split; [exact Hd|intros er Hin; destruct (Ha er Hin)]].
    assert (Hnr' : ~ In n (run_l log)).
    { rewrite (k_run _ _ _ K). destruct Hf as [-> | ->]; discriminate. }
    cbn [ev_cond]. repeat (split; [assumption|]). split.
    + intros m Hm. assert (Hne : n <> m) by congruence. apply (k_run _ _ _ K) in Hm.
      apply K; [exact Hu|rewrite Hm; exact I|exact Hne].
    + pose proof (k_bound _ _ _ K) as B. rewrite <- (map_length co_node lv) in B.
      eapply Nat.le_trans; [|exact B].
      apply (NoDup_incl_length (l := n :: run_l log)); [constructor; [exact Hnr'|apply K]|].
      assert (Hw : forall m, unfin (fut m) -> In m (map co_node lv)).
      { intros m Hm. apply (k_unfin _ _ _ K) in Hm. destruct Hm as [rec Hm].
        apply in_map_iff. exists (Coro m (CWait rec)). auto. }
      intros m [<-|Hm]; apply Hw; [exact Hu|]. apply (k_run _ _ _ K) in Hm. rewrite Hm. exact I.
  - intros m. destruct (upd_cases fut n FRunning m) as [[-> ->]|[Hne ->]].
    + cbn. split; [auto|]. split; [auto|]. intros o [Hx|Hx]; [discriminate|eapply H3; eauto].
    + apply fut_log_other; try congruence. apply K.
  - intros m. destruct (upd_cases fut n FRunning m) as [[-> ->]|[Hne ->]]; [|apply K].
    intros _. apply K, Hu.
  - intros m Hm. assert (Hm' : unfin (fut m)).
    { destruct (upd_cases fut n FRunning m) as [[-> E]|[Hne E]]; [exact Hu|rewrite E in Hm; exact Hm]. }
    destruct (k_ok _ _ _ K m Hm') as [G1 G2].
    split; [rewrite recorded_other by reflexivity; exact G1|apply after_recorded_mono, G2].
  - intros m1 m2 Hm1 Hm2 Hne. apply K; [| |exact Hne].
    + destruct (upd_cases fut n FRunning m1) as [[-> E]|[Hne' E]]; [exact Hu|rewrite E in Hm1; exact Hm1].
    + destruct (upd_cases fut n FRunning m2) as [[-> E]|[Hne' E]]; [exact Hu|rewrite E in Hm2; exact Hm2].
  - apply K.
  - rewrite run_l_cons. cbn. constructor; [|apply K].
    rewrite (k_run _ _ _ K). destruct Hf as [-> | ->]; discriminate.
  - intros m. rewrite run_l_cons. cbn.
    destruct (upd_cases fut n FRunning m) as [[-> ->]|[Hne ->]].
    + split; auto.
    + rewrite (k_run _ _ _ K). split; [intros [->|?]; [congruence|assumption]|auto].
  - intros m. pose proof (k_kind _ _ _ K m) as Hm.
    destruct (upd_cases fut n FRunning m) as [[-> ->]|[Hne ->]]; [|exact Hm].
    destruct (deferred c); discriminate.
  - intros m. destruct (upd_cases fut n FRunning m) as [[-> _]|[Hne ->]]; [|apply K].
    intros _. apply (k_ids _ _ _ K). destruct Hf as [-> | ->]; discriminate.
Qed.

Lemma core_end fut log lv n o :
  Core fut log lv -> fut n = FRunning ->
  ~ In EDestroyed log -> (forall er, ~ In (EAfterExec er) log) ->
  Core (upd fut n (FReady o)) (EEnd n o :: log) lv.
Proof.
  intros K Hf Hd Ha.
  assert (Hu : unfin (fut n)) by (rewrite Hf; exact I).
  pose proof (k_fut _ _ _ K n) as Hn. rewrite Hf in Hn. cbn in Hn. destruct Hn as [H1 [H2 H3]].
  destruct (k_ok _ _ _ K n Hu) as [Hnr Har].
  constructor.
  - split; [|apply K]. split; [|split; [exact Hd|intros er Hin; destruct (Ha er Hin)]].
    cbn. split; [exact H2|]. split; [intros [o' Ho']; eapply H3; eauto|exact Hnr].
  - intros m. destruct (upd_cases fut n (FReady o) m) as [[-> ->]|[Hne ->]].
    + cbn. repeat split; auto. intros o' [Hx|Hx]; [congruence|]. destruct (H3 _ Hx).
    + apply fut_log_other; try congruence. apply K.
  - intros m. destruct (upd_cases fut n (FReady o) m) as [[-> ->]|[Hne ->]]; [intros []|apply K].
  - intros m. destruct (upd_cases fut n (FReady o) m) as [[-> ->]|[Hne ->]]; [intros []|].
    intros Hm. destruct (k_ok _ _ _ K m Hm) as [G1 G2].
    split; [rewrite recorded_other by reflexivity; exact G1|apply after_recorded_mono, G2].
  - intros m1 m2.
    destruct (upd_cases fut n (FReady o) m1) as [[-> ->]|[Hne ->]]; [intros []|].
    destruct (upd_cases fut n (FReady o) m2) as [[-> ->]|[Hne2 ->]]; [intros _ []|].
    apply K.
  - apply K.
  - rewrite run_l_cons. cbn. unfold set_erase. apply NoDup_filter, K.
  - intros m. rewrite run_l_cons. cbn. rewrite set_erase_In, (k_run _ _ _ K).
    destruct (upd_cases fut n (FReady o) m) as [[-> ->]|[Hne ->]].
    + split; [tauto|discriminate].
    + tauto.
  - intros m. pose proof (k_kind _ _ _ K m) as Hm.
    destruct (upd_cases fut n (FReady o) m) as [[-> ->]|[Hne ->]]; [|exact Hm].
    destruct (deferred c); discriminate.
  - intros m. destruct (upd_cases fut n (FReady o) m) as [[-> _]|[Hne ->]]; [|apply K].
    intros _. apply (k_ids _ _ _ K). rewrite Hf; discriminate.
Qed.


(** * The scheduler's data while it is working *)

Definition is_wait (k : coro) : Prop := exists rec, co_st k = CWait rec.
Definition fresh_last (lv : list coro) : Prop :=
  forall l1 k l2, lv = l1 ++ k :: l2 -> co_st k = CFresh -> l2 = [].

Record wait_ok (ns : nid -> nstate) (fut : nid -> fstate) (log : list event)
       (n : nid) (rec : run_record) : Prop := {
  w_rec : exists z, rec = new_record c n z;
  w_flags : flags (ns n) = (true, false, false);
  w_fut : fut n <> FNone;
  w_inv : Invalidated c n;
  w_before : before_l log n;
  w_after : after_recorded log n;
  w_deps : forall m r', requires d n m -> runs_after d n m -> In r' (recs log) -> r_node r' = m ->
                        is_bad (r_status r') = false;
  w_nolog : ~ runlog_l log n
}.

Record Act (todo : list nid) (ns : nid -> nstate) (used : list rid) (lv : list coro)
       (fut : nid -> fstate) (erec : exec_record) (log : list event) : Prop := {
  a_acc : forall n, In n ids -> Acc (succ_of d) n;
  a_perm : Permutation ids (todo ++ map co_node lv ++ map r_node (er_runs erec));
  a_sorted : sorted todo;
  a_fl : fresh_last lv;
  a_inv : forall n, In n ids -> (ns_inval (ns n) = INVALID /\ Invalidated c n)
                             \/ (ns_inval (ns n) = VALID /\ ~ Invalidated c n);
  a_idle : forall n, In n todo \/ In (Coro n CFresh) lv ->
             flags (ns n) = (false, false, false) /\ fut n = FNone /\ ~ before_l log n;
  a_fresh : forall n, In (Coro n CFresh) lv ->
             after_recorded log n /\ forall r, In r (node_res c n) -> ~ In r used;
  a_wait : forall n rec, In (Coro n (CWait rec)) lv -> wait_ok ns fut log n rec;
  a_rec : forall r, In r (er_runs erec) ->
             ns_done (ns (r_node r)) = true /\ ns_failed (ns (r_node r)) = is_bad (r_status r);
  a_used : forall r, In r used <->
             exists n rec, In (Coro n (CWait rec)) lv /\ In r (node_res c n);
  a_disj : forall n m rec rec', In (Coro n (CWait rec)) lv -> In (Coro m (CWait rec')) lv ->
             n <> m -> disjoint_res n m;
  a_snap : accounts c (recs log) erec;
  a_start : startup_done log
}.

Section ActFacts.
  Variables (todo : list nid) (ns : nid -> nstate) (used : list rid) (lv : list coro)
            (fut : nid -> fstate) (erec : exec_record) (log : list event).
  Hypothesis Hnd : NoDup ids.
  Hypothesis A : Act todo ns used lv fut erec log.

  Lemma act_nodup : NoDup (todo ++ map co_node lv ++ map r_node (er_runs erec)).
  Proof. eapply Permutation_NoDup; [apply A|exact Hnd]. Qed.

  Lemma act_where n : In n ids <->
    In n todo \/ In n (map co_node lv) \/ In n (map r_node (er_runs erec)).
  Proof.
    split.
    - intros H. apply (Permutation_in _ (a_perm _ _ _ _ _ _ _ A)) in H.
      apply in_app_iff in H. rewrite in_app_iff in H. exact H.
    - intros H. apply (Permutation_in _ (Permutation_sym (a_perm _ _ _ _ _ _ _ A))).
      apply in_app_iff. rewrite in_app_iff. exact H.
  Qed.

  Lemma act_recorded n : recorded_l log n <-> In n (map r_node (er_runs erec)).
  Proof.
    destruct (a_snap _ _ _ _ _ _ _ A) as [-> _]. unfold recorded_l. rewrite in_map_iff.
    split; intros [r [H1 H2]]; exists r; auto.
  Qed.

  Lemma act_lv_cases n : In n (map co_node lv) ->
    In (Coro n CFresh) lv \/ exists rec, In (Coro n (CWait rec)) lv.
  Proof.
    intros H. apply in_map_iff in H. destruct H as [[m st] [E H]]. cbn in E. subst m.
    destruct st as [|rec]; eauto.
  Qed.

  Lemma act_done n : In n ids -> ns_done (ns n) = true -> recorded_l log n.
  Proof.
    intros Hn Hd. apply act_recorded. apply act_where in Hn. destruct Hn as [H|[H|H]].
    - destruct (a_idle _ _ _ _ _ _ _ A n (or_introl H)) as [E _].
      unfold flags in E. congruence.
    - apply act_lv_cases in H. destruct H as [H|[rec H]].
      + destruct (a_idle _ _ _ _ _ _ _ A n (or_intror H)) as [E _]. unfold flags in E. congruence.
      + pose proof (w_flags _ _ _ _ _ (a_wait _ _ _ _ _ _ _ A n rec H)) as E.
        unfold flags in E. congruence.
    - exact H.
  Qed.

  Lemma act_failed n : In n ids -> ns_failed (ns n) = true ->
    exists r, In r (recs log) /\ r_node r = n /\ is_bad (r_status r) = true.
  Proof.
    intros Hn Hf. destruct (a_snap _ _ _ _ _ _ _ A) as [Er _].
    apply act_where in Hn. destruct Hn as [H|[H|H]].
    - destruct (a_idle _ _ _ _ _ _ _ A n (or_introl H)) as [E _]. unfold flags in E. congruence.
    - apply act_lv_cases in H. destruct H as [H|[rec H]].
      + destruct (a_idle _ _ _ _ _ _ _ A n (or_intror H)) as [E _]. unfold flags in E. congruence.
      + pose proof (w_flags _ _ _ _ _ (a_wait _ _ _ _ _ _ _ A n rec H)) as E.
        unfold flags in E. congruence.
    - apply in_map_iff in H. destruct H as [r [<- H]]. exists r.
      rewrite <- Er. split; [exact H|]. split; [reflexivity|].
      destruct (a_rec _ _ _ _ _ _ _ A r H) as [_ <-]. exact Hf.
  Qed.

  Lemma act_not_failed n r : ns_failed (ns n) = false -> In r (recs log) -> r_node r = n ->
    is_bad (r_status r) = false.
  Proof.
    intros Hf Hr <-. destruct (a_snap _ _ _ _ _ _ _ A) as [Er _]. rewrite <- Er in Hr.
    destruct (a_rec _ _ _ _ _ _ _ A r Hr) as [_ <-]. exact Hf.
  Qed.

  Lemma act_lv_not_recorded n : In n (map co_node lv) -> ~ recorded_l log n.
  Proof.
    intros H Hr. apply act_recorded in Hr. pose proof act_nodup as N.
    apply NoDup_app_iff in N. destruct N as [_ [N _]].
    apply NoDup_app_iff in N. destruct N as [_ [_ N]]. eauto.
  Qed.

  Lemma act_lv_ids n : In n (map co_node lv) -> In n ids.
  Proof. intros H. apply act_where. auto. Qed.
End ActFacts.

(** Emitting an event that is none of the structural ones. *)
Definition quiet (e : event) : bool :=
  match e with
  | EOnTick _ | ETimeout _ | EBegin _ | EEnd _ _ | ELaunch _ => true
  | _ => false
  end.

Lemma before_quiet e log n : quiet e = true -> before_l (e :: log) n <-> before_l log n.
Proof.
  intros Hq. split; intros [er H].
  - destruct H as [->|H]; [discriminate|]. exists er; exact H.
  - exists er; right; exact H.
Qed.

Lemma runlog_quiet e log n : quiet e = true -> runlog_l (e :: log) n <-> runlog_l log n.
Proof.
  intros Hq. split; intros [t H].
  - destruct H as [->|H]; [discriminate|]. exists t; exact H.
  - exists t; right; exact H.
Qed.

Lemma quiet_recs e log : quiet e = true -> recs (e :: log) = recs log.
Proof. intros H. apply recs_other. destruct e; try discriminate; reflexivity. Qed.

Lemma asked_mono e log : asked log -> asked (e :: log).
Proof.
  intros H n Hn. destruct (H n Hn) as [H1 [v [t H2]]]. split; [right; exact H1|].
  exists v, t. right; exact H2.
Qed.

Lemma startup_mono e log : startup_done log -> startup_done (e :: log).
Proof.
  intros [H1 H2]. split; [apply asked_mono, H1|]. intros n G1 G2 G3.
  destruct (H2 n G1 G2 G3) as [m Hm]. exists m. right; exact Hm.
Qed.

Lemma wait_ok_quiet ns fut log n rec e :
  quiet e = true -> wait_ok ns fut log n rec -> wait_ok ns fut (e :: log) n rec.
Proof.
  intros Hq W. constructor; try apply W.
  - apply before_quiet; [exact Hq|apply W].
  - apply after_recorded_mono, W.
  - rewrite quiet_recs by exact Hq. apply W.
  - rewrite runlog_quiet by exact Hq. apply W.
Qed.

Lemma act_quiet todo ns used lv fut erec log e :
  quiet e = true -> Act todo ns used lv fut erec log -> Act todo ns used lv fut erec (e :: log).
Proof.
  intros Hq A. constructor; try apply A.
  - intros n Hn. rewrite before_quiet by exact Hq. apply A, Hn.
  - intros n Hn. destruct (a_fresh _ _ _ _ _ _ _ A n Hn) as [H1 H2].
    split; [apply after_recorded_mono, H1|exact H2].
  - intros n rec Hn. apply wait_ok_quiet; [exact Hq|apply A, Hn].
  - rewrite quiet_recs by exact Hq. apply A.
  - apply startup_mono, A.
Qed.

(** A future changes from one of the non-empty states to another. *)
Lemma act_fut todo ns used lv fut erec log n f :
  fut n <> FNone -> f <> FNone ->
  Act todo ns used lv fut erec log -> Act todo ns used lv (upd fut n f) erec log.
Proof.
  intros H1 H2 A. constructor; try apply A.
  - intros m Hm. destruct (a_idle _ _ _ _ _ _ _ A m Hm) as [G1 [G2 G3]].
    split; [exact G1|]. split; [|exact G3]. rewrite upd_other; [exact G2|]. congruence.
  - intros m rec Hm. pose proof (a_wait _ _ _ _ _ _ _ A m rec Hm) as W.
    constructor; try apply W.
    destruct (upd_cases fut n f m) as [[-> ->]|[Hne ->]]; [exact H2|apply W].
Qed.

Lemma fresh_last_sub lv l1 k l2 : lv = l1 ++ k :: l2 -> fresh_last lv -> fresh_last (l1 ++ l2).
Proof.
  intros -> H a x b E Hx. apply app_cons_cases in E.
  destruct E as [[l1' [-> ->]]|[a' [-> ->]]].
  - exfalso. assert (E1 : l1' ++ k :: l2 = []).
    { apply (H a x); [rewrite <- app_assoc; reflexivity|exact Hx]. }
    destruct l1'; discriminate.
  - apply (H (l1 ++ k :: a') x b); [|exact Hx].
    rewrite <- app_assoc. reflexivity.
Qed.

(** A record is produced for the coroutine [k] of [n]. *)
Lemma act_complete todo ns ns' used used' l1 k l2 fut erec log log1 rec x :
  NoDup ids ->
  Act todo ns used (l1 ++ k :: l2) fut erec log ->
  r_node rec = co_node k ->
  (* the event in between: before_run or on_run_log of this node *)
  ((exists er, log1 = EBeforeRun er (co_node k) :: log)
   \/ exists t, log1 = ERunLog (co_node k) t :: log) ->
  (forall m, m <> co_node k -> ns' m = ns m) ->
  ns_inval (ns' (co_node k)) = ns_inval (ns (co_node k)) ->
  ns_done (ns' (co_node k)) = true ->
  ns_failed (ns' (co_node k)) = is_bad (r_status rec) ->
  (forall r, In r used' <-> In r used /\ (is_wait k -> ~ In r (node_res c (co_node k)))) ->
  Act todo ns' used' (l1 ++ l2) fut (push erec rec) (EAfterRun erec rec x :: log1).
Proof.
  intros Hnd A Hn Hlog Hns Hinv Hdone Hfail Hused.
  set (n := co_node k) in *.
  assert (Hrecs1 : recs log1 = recs log).
  { destruct Hlog as [[er ->]|[t ->]]; apply recs_other; reflexivity. }
  pose proof (act_nodup _ _ _ _ _ _ _ Hnd A) as N.
  apply NoDup_app_iff in N. destruct N as [N1 [N2 N3]].
  apply NoDup_app_iff in N2. destruct N2 as [N4 [N5 N6]].
  assert (Hin_k : In n (map co_node (l1 ++ k :: l2))).
  { apply in_map, in_mid. auto. }
  assert (Hn_lv : forall m, In m (map co_node (l1 ++ l2)) -> m <> n).
  { intros m Hm ->. rewrite map_app in N4. cbn in N4. apply NoDup_remove_2 in N4.
    apply N4. rewrite <- map_app. exact Hm. }
  assert (Hn_todo : forall m, In m todo -> m <> n).
  { intros m Hm ->. apply (N3 n Hm). apply in_app_iff. auto. }
  assert (Hn_rec : forall r, In r (er_runs erec) -> r_node r <> n).
  { intros r Hr E. apply (N6 n Hin_k). rewrite <- E. apply in_map, Hr. }
  assert (Hsub : forall q, In q (l1 ++ l2) -> In q (l1 ++ k :: l2)).
  { intros q Hq. apply in_mid. auto. }
  assert (Hbef : forall m, m <> n -> before_l (EAfterRun erec rec x :: log1) m <-> before_l log m).
  { intros m Hm. split; intros [er H].
    - exists er. destruct H as [H|H]; [discriminate|].
      destruct Hlog as [[er' ->]|[t ->]]; destruct H as [H|H]; try exact H; congruence.
    - exists er. right. destruct Hlog as [[er' ->]|[t ->]]; right; exact H. }
  assert (Hrl : forall m, m <> n -> runlog_l (EAfterRun erec rec x :: log1) m <-> runlog_l log m).
  { intros m Hm. split; intros [t H].
    - exists t. destruct H as [H|H]; [discriminate|].
      destruct Hlog as [[er' ->]|[t' ->]]; destruct H as [H|H]; try exact H; congruence.
    - exists t. right. destruct Hlog as [[er' ->]|[t' ->]]; right; exact H. }
  assert (Hrecs : recs (EAfterRun erec rec x :: log1) = recs log ++ [rec]).
  { rewrite recs_after, Hrecs1. reflexivity. }
  assert (Hafter : forall m, after_recorded log m -> after_recorded (EAfterRun erec rec x :: log1) m).
  { intros m H. apply after_recorded_mono. destruct Hlog as [[er' ->]|[t' ->]]; apply after_recorded_mono, H. }
  assert (Hw2 : forall m rec', In (Coro m (CWait rec')) (l1 ++ k :: l2) -> m <> n ->
                 In (Coro m (CWait rec')) (l1 ++ l2)).
  { intros m rec' H Hm. apply in_mid in H. destruct H as [H|H]; [|exact H].
    exfalso. apply Hm. unfold n. rewrite <- H. reflexivity. }
  constructor.
  - apply A.
  - eapply Permutation_trans; [apply A|]. cbn [push er_runs].
    apply Permutation_app_head. rewrite !map_app. cbn [map].
    rewrite <- app_assoc. cbn [app]. rewrite Hn. fold n.
    eapply Permutation_trans; [apply Permutation_sym, Permutation_middle|].
    rewrite app_assoc.
    replace (((map co_node l1 ++ map co_node l2) ++ map r_node (er_runs erec) ++ [n]))
      with (((map co_node l1 ++ map co_node l2) ++ map r_node (er_runs erec)) ++ [n])
      by (rewrite <- app_assoc; reflexivity).
    apply Permutation_cons_append.
  - apply A.
  - eapply fresh_last_sub; [reflexivity|apply A].
  - intros m Hm. destruct (Nat.eq_dec m n) as [->|Hne].
    + rewrite Hinv. apply A, Hm.
    + rewrite Hns by exact Hne. apply A, Hm.
  - intros m Hm.
    assert (Hne : m <> n).
    { destruct Hm as [Hm|Hm]; [apply Hn_todo, Hm|]. apply Hn_lv. apply in_map_iff.
      exists (Coro m CFresh). auto. }
    assert (Hm' : In m todo \/ In (Coro m CFresh) (l1 ++ k :: l2)) by (destruct Hm; auto).
    destruct (a_idle _ _ _ _ _ _ _ A m Hm') as [G1 [G2 G3]].
    rewrite Hns by exact Hne. rewrite Hbef by exact Hne. auto.
  - intros m Hm. destruct (a_fresh _ _ _ _ _ _ _ A m (Hsub _ Hm)) as [G1 G2].
    split; [apply Hafter, G1|]. intros r Hr Hu. apply Hused in Hu. eapply G2; [exact Hr|apply Hu].
  - intros m rec' Hm.
    assert (Hne : m <> n) by (apply Hn_lv, in_map_iff; eexists; split; [|exact Hm]; reflexivity).
    pose proof (a_wait _ _ _ _ _ _ _ A m rec' (Hsub _ Hm)) as W.
    constructor; try apply W.
    + rewrite Hns by exact Hne. apply W.
    + apply Hbef; [exact Hne|apply W].
    + apply Hafter, W.
    + intros m' r' Hq Ha Hin E. rewrite Hrecs in Hin. apply in_app_iff in Hin.
      destruct Hin as [Hin|[<-|[]]]; [eapply (w_deps _ _ _ _ _ W); eauto|].
      exfalso. rewrite Hn in E. fold n in E. subst m'.
      destruct (w_after _ _ _ _ _ W n Ha) as [r2 [Hr2 E2]].
      destruct (a_snap _ _ _ _ _ _ _ A) as [Er _]. rewrite <- Er in Hr2.
      exact (Hn_rec r2 Hr2 E2).
    + rewrite Hrl by exact Hne. apply W.
  - intros r Hr. cbn in Hr. apply in_app_iff in Hr. destruct Hr as [Hr|[<-|[]]].
    + rewrite Hns by (apply Hn_rec, Hr). apply A, Hr.
    + rewrite Hn. auto.
  - intros r. rewrite Hused, (a_used _ _ _ _ _ _ _ A). split.
    + intros [[m [rec' [Hm Hr]]] Hk]. exists m, rec'. split; [|exact Hr].
      apply Hw2; [exact Hm|]. intros ->. apply Hk; [|exact Hr].
      apply in_mid in Hm. destruct Hm as [Hm|Hm].
      * exists rec'. rewrite <- Hm. reflexivity.
      * exfalso. apply (Hn_lv n); [|reflexivity]. apply in_map_iff. eexists; split; [|exact Hm]; reflexivity.
    + intros [m [rec' [Hm Hr]]]. split; [exists m, rec'; auto|].
      intros [rk Hk] Hr'.
      assert (Hne : m <> n) by (apply Hn_lv, in_map_iff; eexists; split; [|exact Hm]; reflexivity).
      apply (a_disj _ _ _ _ _ _ _ A m n rec' rk) with (r := r); auto.
      apply in_mid. left. unfold n. destruct k as [kn ks]; cbn in *. subst ks. reflexivity.
  - intros m1 m2 rec1 rec2 H1 H2. eapply (a_disj _ _ _ _ _ _ _ A); apply Hsub; eassumption.
  - rewrite Hrecs. apply accounts_push, A.
  - apply startup_mono. destruct Hlog as [[er' ->]|[t' ->]]; apply startup_mono, A.
Qed.

Lemma before_mono e log n : before_l log n -> before_l (e :: log) n.
Proof. intros [er H]. exists er. right; exact H. Qed.

Lemma runlog_before log n : log_ok log -> runlog_l log n -> before_l log n.
Proof.
  induction log as [|e log IH]; intros Hok [t H]; [destruct H|].
  destruct Hok as [[He _] Hok]. destruct H as [->|H].
  - cbn in He. apply before_mono. tauto.
  - apply before_mono, IH; [exact Hok|exists t; exact H].
Qed.

(** A fresh coroutine launches its job. *)
Lemma act_launch todo ns used l1 l2 fut erec log n z f :
  NoDup ids -> log_ok log ->
  Act todo ns used (l1 ++ Coro n CFresh :: l2) fut erec log ->
  f <> FNone -> Invalidated c n ->
  (forall m, requires d n m -> ns_failed (ns m) = false) ->
  Act todo (upd ns n (NState (ns_inval (ns n)) true (ns_done (ns n)) (ns_failed (ns n))))
      (fold_left (fun u r => set_insert r u) (node_res c n) used)
      (l1 ++ Coro n (CWait (new_record c n z)) :: l2)
      (upd fut n f) erec (ELaunch n :: EBeforeRun erec n :: log).
Proof.
  intros Hnd Hlok A Hf Hinv Hdep.
  set (log' := ELaunch n :: EBeforeRun erec n :: log).
  assert (Hrecs : recs log' = recs log).
  { unfold log'. rewrite !recs_other by reflexivity. reflexivity. }
  pose proof (act_nodup _ _ _ _ _ _ _ Hnd A) as N.
  apply NoDup_app_iff in N. destruct N as [N1 [N2 N3]].
  apply NoDup_app_iff in N2. destruct N2 as [N4 [N5 N6]].
  assert (Hin_k : In n (map co_node (l1 ++ Coro n CFresh :: l2))).
  { apply in_map_iff. exists (Coro n CFresh). split; [reflexivity|]. apply in_mid. auto. }
  assert (Hn_lv : forall m, In m (map co_node (l1 ++ l2)) -> m <> n).
  { intros m Hm ->. rewrite map_app in N4. cbn in N4. apply NoDup_remove_2 in N4.
    apply N4. rewrite <- map_app. exact Hm. }
  assert (Hn_lv' : forall m st, In (Coro m st) (l1 ++ l2) -> m <> n).
  { intros m st Hm. apply Hn_lv, in_map_iff. exists (Coro m st). auto. }
  assert (Hn_todo : forall m, In m todo -> m <> n).
  { intros m Hm ->. apply (N3 n Hm). apply in_app_iff. auto. }
  assert (Hn_rec : forall r, In r (er_runs erec) -> r_node r <> n).
  { intros r Hr E. apply (N6 n Hin_k). rewrite <- E. apply in_map, Hr. }
  assert (Hsub : forall q, In q (l1 ++ l2) -> In q (l1 ++ Coro n CFresh :: l2)).
  { intros q Hq. apply in_mid. auto. }
  assert (Hfr : In (Coro n CFresh) (l1 ++ Coro n CFresh :: l2)) by (apply in_mid; auto).
  destruct (a_fresh _ _ _ _ _ _ _ A n Hfr) as [Fa Fu].
  destruct (a_idle _ _ _ _ _ _ _ A n (or_intror Hfr)) as [Ff [Ffut Fb]].
  assert (Hl2 : l2 = []) by (eapply (a_fl _ _ _ _ _ _ _ A); [reflexivity|reflexivity]).
  assert (Hbef : forall m, m <> n -> before_l log' m <-> before_l log m).
  { intros m Hm. split; intros [er H].
    - exists er. destruct H as [H|[H|H]]; congruence.
    - exists er. right; right; exact H. }
  assert (Hrl : forall m, runlog_l log' m <-> runlog_l log m).
  { intros m. split; intros [t H].
    - exists t. destruct H as [H|[H|H]]; congruence.
    - exists t. right; right; exact H. }
  assert (Hafter : forall m, after_recorded log m -> after_recorded log' m).
  { intros m H. apply after_recorded_mono, after_recorded_mono, H. }
  constructor.
  - apply A.
  - eapply Permutation_trans; [apply A|]. rewrite !map_app. reflexivity.
  - apply A.
  - subst l2. intros a q b E Hq. apply app_cons_cases in E.
    destruct E as [[l1' [-> ->]]|[a' [-> E]]].
    + exfalso. assert (E1 : l1' ++ [Coro n CFresh] = []).
      { eapply (a_fl _ _ _ _ _ _ _ A a q); [rewrite <- app_assoc; reflexivity|exact Hq]. }
      destruct l1'; discriminate.
    + destruct a' as [|y a']; cbn in E.
      * inversion E; subst. discriminate.
      * inversion E as [[Ey E']]. destruct a'; discriminate.
  - intros m Hm. destruct (upd_cases ns n (NState (ns_inval (ns n)) true (ns_done (ns n)) (ns_failed (ns n))) m)
      as [[-> ->]|[Hne ->]]; apply A, Hm.
  - intros m Hm.
    assert (Hm' : m <> n /\ (In m todo \/ In (Coro m CFresh) (l1 ++ Coro n CFresh :: l2))).
    { destruct Hm as [Hm|Hm]; [auto|]. apply in_mid in Hm. destruct Hm as [Hm|Hm]; [discriminate|].
      split; [eapply Hn_lv', Hm|auto]. }
    destruct Hm' as [Hne Hm'].
    destruct (a_idle _ _ _ _ _ _ _ A m Hm') as [G1 [G2 G3]].
    rewrite !upd_other by exact Hne. rewrite Hbef by exact Hne. auto.
  - intros m Hm. exfalso. apply in_mid in Hm. destruct Hm as [Hm|Hm]; [discriminate|].
    subst l2. rewrite app_nil_r in Hm. apply in_split in Hm. destruct Hm as [a [b ->]].
    assert (E1 : b ++ [Coro n CFresh] = []).
    { eapply (a_fl _ _ _ _ _ _ _ A a (Coro m CFresh)); [rewrite <- app_assoc; reflexivity|reflexivity]. }
    destruct b; discriminate.
  - intros m rec' Hm. apply in_mid in Hm. destruct Hm as [Hm|Hm].
    + inversion Hm; subst m rec'. constructor.
      * exists z. reflexivity.
      * rewrite upd_same. unfold flags in *. cbn. congruence.
      * rewrite upd_same. exact Hf.
      * exact Hinv.
      * exists erec. right; left; reflexivity.
      * apply Hafter, Fa.
      * intros m r' Hq _ Hr E. rewrite Hrecs in Hr.
        eapply act_not_failed; [exact A|apply Hdep, Hq|exact Hr|exact E].
      * rewrite Hrl. intros Hr. apply Fb. eapply runlog_before; eassumption.
    + pose proof (a_wait _ _ _ _ _ _ _ A m rec' (Hsub _ Hm)) as W.
      assert (Hne : m <> n) by (eapply Hn_lv', Hm).
      constructor; try apply W.
      * rewrite upd_other by exact Hne. apply W.
      * rewrite upd_other by exact Hne. apply W.
      * apply Hbef; [exact Hne|apply W].
      * apply Hafter, W.
      * rewrite Hrecs. apply W.
      * rewrite Hrl. apply W.
  - intros r Hr. rewrite upd_other by (apply Hn_rec, Hr). apply A, Hr.
  - intros r. rewrite fold_insert_In, (a_used _ _ _ _ _ _ _ A). split.
    + intros [Hr|[m [rec' [Hm Hr]]]].
      * exists n, (new_record c n z). split; [apply in_mid; auto|exact Hr].
      * exists m, rec'. split; [|exact Hr]. apply in_mid in Hm. destruct Hm as [Hm|Hm]; [discriminate|].
        apply in_mid. auto.
    + intros [m [rec' [Hm Hr]]]. apply in_mid in Hm. destruct Hm as [Hm|Hm].
      * inversion Hm; subst. auto.
      * right. exists m, rec'. auto.
  - assert (Hd1 : forall m rec', In (Coro m (CWait rec')) (l1 ++ l2) -> disjoint_res n m).
    { intros m rec' Hm r Hr1 Hr2. apply (Fu r Hr1). apply A. exists m, rec'. auto. }
    intros m1 m2 rec1 rec2 H1 H2 Hne. apply in_mid in H1, H2.
    destruct H1 as [H1|H1]; destruct H2 as [H2|H2].
    + congruence.
    + inversion H1; subst. eapply Hd1, H2.
    + inversion H2; subst. intros r Hr1 Hr2. eapply Hd1; eauto.
    + eapply (a_disj _ _ _ _ _ _ _ A); eauto.
  - rewrite Hrecs. apply A.
  - apply startup_mono, startup_mono, A.
Qed.

(** A ready node is taken from to_process. *)
Lemma act_dispatch todo ns used lv fut erec log n :
  NoDup ids -> (forall k, In k lv -> is_wait k) ->
  Act todo ns used lv fut erec log ->
  In n todo -> after_recorded log n -> (forall r, In r (node_res c n) -> ~ In r used) ->
  Act (set_erase n todo) ns used (lv ++ [Coro n CFresh]) fut erec log.
Proof.
  intros Hnd Hw A Hin Har Hres.
  assert (Hwait : forall m rec, In (Coro m (CWait rec)) (lv ++ [Coro n CFresh]) <-> In (Coro m (CWait rec)) lv).
  { intros m rec. rewrite in_app_iff. cbn. split; [intros [H|[H|[]]]; [exact H|discriminate]|auto]. }
  constructor; try apply A.
  - eapply Permutation_trans; [apply A|].
    eapply Permutation_trans;
      [apply Permutation_app_tail, (Permutation_set_erase n); [apply sorted_NoDup, A|exact Hin]|].
    cbn [app]. rewrite map_app. cbn [map]. rewrite <- (app_assoc (map co_node lv)). cbn [app].
    rewrite !app_assoc. apply Permutation_middle.
  - apply set_erase_sorted, A.
  - intros a q b E Hq. apply app_cons_cases in E. destruct E as [[l' [-> ->]]|[a' [-> E]]].
    + exfalso. destruct (Hw q) as [rec Hrec]; [apply in_mid; auto|congruence].
    + destruct a' as [|y a']; cbn in E; inversion E as [[Ey E']]; [reflexivity|].
      destruct a'; discriminate.
  - intros m [Hm|Hm].
    + apply A. left. apply set_erase_In in Hm. apply Hm.
    + apply in_app_iff in Hm. destruct Hm as [Hm|[Hm|[]]].
      * destruct (Hw _ Hm) as [rec Hrec]. discriminate.
      * inversion Hm; subst m. apply A. auto.
  - intros m Hm. apply in_app_iff in Hm. destruct Hm as [Hm|[Hm|[]]].
    + destruct (Hw _ Hm) as [rec Hrec]. discriminate.
    + inversion Hm; subst m. auto.
  - intros m rec Hm. apply A, Hwait, Hm.
  - intros r. rewrite (a_used _ _ _ _ _ _ _ A). split; intros [m [rec [H1 H2]]]; exists m, rec;
      (split; [apply Hwait, H1|exact H2]).
  - intros m1 m2 r1 r2 H1 H2. apply Hwait in H1, H2. eapply (a_disj _ _ _ _ _ _ _ A); eassumption.
Qed.

(** With no coroutine left and something to do, something is ready. *)
Lemma act_progress todo ns used fut erec log :
  wf_dag d ->
  Act todo ns used [] fut erec log -> todo <> [] ->
  exists n, In n todo /\ ready d ns (node_res c) used n.
Proof.
  intros [Hnd Hcl] A Hne.
  assert (Hused : forall r, ~ In r used).
  { intros r Hr. apply A in Hr. destruct Hr as [n [rec [[] _]]]. }
  assert (Hmin : forall n, Acc (succ_of d) n -> In n todo ->
            exists m, In m todo /\ forall t, runs_after d m t -> ~ In t todo).
  { intros n Ha. induction Ha as [n _ IH]. intros Hn.
    destruct (existsb (fun t => mem t todo) (after_targets d n)) eqn:E.
    - apply existsb_exists in E. destruct E as [t [Ht Hm]]. apply mem_In in Hm.
      apply (IH t); [apply after_targets_In, Ht|exact Hm].
    - exists n. split; [exact Hn|]. intros t Ht Hin.
      assert (existsb (fun t => mem t todo) (after_targets d n) = true); [|congruence].
      apply existsb_exists. exists t. split; [apply after_targets_In, Ht|apply mem_In, Hin]. }
  destruct todo as [|n0 todo']; [congruence|]. set (todo := n0 :: todo') in *.
  assert (Hids : forall n, In n todo -> In n ids).
  { intros n Hn. eapply act_where; [exact A|]. auto. }
  destruct (Hmin n0) as [m [Hm Ht]]; [apply A, Hids; left; reflexivity|left; reflexivity|].
  exists m. split; [exact Hm|].
  destruct (a_idle _ _ _ _ _ _ _ A m (or_introl Hm)) as [Hf _]. unfold flags in Hf.
  split; [split; congruence|]. split; [|auto].
  intros t Hmt. assert (Hti : In t ids) by (apply (Hcl _ Hmt)).
  eapply act_where in Hti; [|exact A]. destruct Hti as [H|[[]|H]].
  - destruct (Ht t Hmt H).
  - apply in_map_iff in H. destruct H as [r [<- Hr]]. apply A, Hr.
Qed.

(** * The invariant of a state *)

Definition live (s : state) : list coro :=
  match s_pc s with
  | Clean _ kept rest => kept ++ map sl_coro rest
  | Unwind _ rest | Destroying rest => map sl_coro rest
  | _ => map sl_coro (s_coros s)
  end.

Definition act (s : state) : Prop :=
  Act (s_todo s) (s_ns s) (s_used s) (live s) (s_fut s) (s_erec s) (s_log s).

Definition exc_ok (e : exc) (log : list event) : Prop :=
  match e with
  | ExcCycle => exists cyc l, log = ECycle cyc :: l
  | ExcInval n => In n ids /\ c_inval c n = IvThrow /\ Forall (fun x => is_jobinv x = true) log
                  /\ exists l, log = EAsk n :: l
  | ExcLaunch n => In n ids /\ 0 < c_threads c
  | ExcVisitor => exists l1 e l2, log = l1 ++ e :: l2 /\ is_callback e = true
                                  /\ Forall (fun x => is_callback x = false) l1
  end.

Definition slots_ok (s : state) (rest : list slot) : Prop :=
  (forall sl, In sl (s_coros s) -> In (sl_node sl) ids) /\
  (forall sl, In sl rest -> In (sl_node sl) ids) /\
  (c_threads c <= 1 ->
   List.length (s_coros s) <= 1 /\
   (forall sl k, In sl (s_coros s) -> In k (live s) -> sl_node sl = co_node k) /\
   (forall sl, In sl rest -> sl_node sl = co_node (sl_coro sl))).

Definition pc_inv (s : state) : Prop :=
  match s_pc s with
  | Created => s_todo s = [] /\ (s_ns s = fun _ => nstate0) /\ s_used s = [] /\ s_coros s = []
               /\ (s_fut s = fun _ => FNone) /\ s_erec s = erec0 /\ s_log s = []
  | Suspended ph =>
      act s /\ slots_ok s (s_coros s)
      /\ (ph = PDrain -> s_todo s = [] /\ forall k, In k (live s) -> is_wait k)
      /\ (deferred c = true -> forall k, In k (live s) -> ~ is_wait k)
  | Clean ph kept rest =>
      act s /\ slots_ok s rest
      /\ (forall k, In k kept -> is_wait k)
      /\ List.length kept + List.length rest <= List.length (s_coros s)
      /\ (ph = PDrain -> s_todo s = []) /\ (ph = PMain -> s_todo s <> [])
      /\ (deferred c = true -> kept = [])
  | Finished => s_coros s = [] /\ exists l, s_log s = EAfterExec (s_erec s) :: l
  | Unwind e _ => exc_ok e (s_log s) /\
                  match e with ExcLaunch _ | ExcVisitor => True | _ => False end
  | Failed e => s_coros s = [] /\ exc_ok e (s_log s)
  | Destroying _ => True
  | Destroyed => s_coros s = [] /\ exists l, s_log s = EDestroyed :: l
  | Bad BadResumeDone => s_coros s = []
  | Bad (BadNullJob n) => s_coros s = [] /\ In n ids /\ node_has_job c n = false
                          /\ Forall (fun x => is_jobinv x = true) (s_log s)
  | Bad _ => False
  end.

Definition inactive (p : pc) : Prop :=
  match p with Created | Suspended _ | Clean _ _ _ => False | _ => True end.

Record Inv (s : state) : Prop := {
  i_core : Core (s_fut s) (s_log s) (live s);
  i_destr : In EDestroyed (s_log s) -> s_pc s = Destroyed;
  i_exec : forall er, In (EAfterExec er) (s_log s) -> inactive (s_pc s) /\ live s = [];
  i_pc : pc_inv s;
  i_defer : deferred c = true -> forall n, unfin (s_fut s n) ->
      exists ph sl rest, s_pc s = Clean ph [] (sl :: rest) /\ co_node (sl_coro sl) = n
}.

Lemma inv_init z : Inv (init z).
Proof.
  constructor; cbn.
  - constructor; cbn.
    + exact I.
    + intros n. cbn. tauto.
    + tauto.
    + tauto.
    + tauto.
    + lia.
    + constructor.
    + intros n. split; [intros []|discriminate].
    + intros n. destruct (deferred c); discriminate.
    + congruence.
  - tauto.
  - intros er [].
  - repeat split.
  - tauto.
Qed.

End Inv.
