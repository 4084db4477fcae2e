(** Lemmas for Properties/NoMemory.v (C106). *)
From Coq Require Import Lia Bool Relations.
From Verif Require Import Model.Common Model.Records Model.Jobs Model.TaskSet Model.Dag
     Model.Sched Model.Exec Model.Alloc Spec.Graph Spec.Trace Spec.Failure Spec.NoMemory
     Proofs.Sets Proofs.SchedFacts Proofs.InvalFacts Proofs.TraceFacts Proofs.ExecInv
     Proofs.ExecStep Proofs.ExecCtl Proofs.LogFacts Proofs.ExecProps Proofs.ExecProps2
     Proofs.StepCases Proofs.ExecProps3 Proofs.FailureFacts Proofs.RootCause.
Open Scope nat_scope.
Open Scope list_scope.

(** ** Without a failed allocation nothing is new *)
Lemma xrun_do c : forall ls x, xrun c x (map XDo ls) =
  option_map (fun s => XState s (x_nomem x)) (run_labels c (x_s x) ls).
Proof.
  induction ls as [|l ls IH]; intros x; cbn; [destruct x; reflexivity|].
  destruct (step c (x_s x) l) as [s|]; cbn; [|reflexivity]. rewrite IH. reflexivity.
Qed.

Lemma xrun_app c : forall ls1 ls2 x, xrun c x (ls1 ++ ls2) =
  match xrun c x ls1 with Some y => xrun c y ls2 | None => None end.
Proof.
  induction ls1 as [|l ls1 IH]; intros ls2 x; cbn; [reflexivity|].
  destruct (xstep c x l); [apply IH|reflexivity].
Qed.

Section Facts.
Variable c : config.
Hypothesis Hwf : wf_dag (c_dag c).

(** Jobs that have not ended belong to run coroutines still to be destroyed. *)
Definition covered (fut : nid -> fstate) (rest : list slot) : Prop :=
  forall n, unfin (fut n) -> waits n (map sl_coro rest).
Definition idle (fut : nid -> fstate) : Prop := forall n, ~ unfin (fut n).

(** What is known of an execution in which an allocation failed: [s0] is an execution of
    Exec.v with the same futures whose trace it begins. *)
Definition Shadow (z : Z) (s : state) : Prop :=
  exists s0 t u,
    reachable c z s0 /\ trace s0 = t ++ u /\
    ((u = [] /\ s_fut s0 = s_fut s) \/
     ((forall n, s_fut s n = FNone) /\ forall n, ~ In (ELaunch n) t)) /\
    (deferred c = true -> idle (s_fut s)) /\
    match s_pc s with
    | Unwind _ rest | Destroying rest => covered (s_fut s) rest /\ trace s = t
    | Failed _ => s_coros s = [] /\ idle (s_fut s) /\ trace s = t
    | Bad BadResumeDone => idle (s_fut s) /\ trace s = t
    | Destroyed => idle (s_fut s) /\ trace s = t ++ [EDestroyed]
    | _ => False
    end.

Lemma trace_app s es : trace (emits s es) = trace s ++ es.
Proof. unfold trace. rewrite emits_eq. cbn. rewrite rev_app_distr, rev_involutive. reflexivity. Qed.

Lemma log_app_new (l1 l2 : list event) : firstn (List.length (rev l1 ++ l2) - List.length l2) (rev l1 ++ l2) = rev l1.
Proof.
  rewrite app_length. replace (List.length (rev l1) + List.length l2 - List.length l2) with (List.length (rev l1) + 0) by lia.
  rewrite firstn_app_2. cbn. apply app_nil_r.
Qed.

Lemma cut_all : forall es post, es <> [] -> Forall (fun e => is_callback e = true) es ->
  cut_at (pred (List.length es)) (es ++ post) = Some es.
Proof.
  induction es as [|e es IH]; intros post Hn HF; [congruence|].
  inversion HF; subst. cbn. rewrite H1. destruct es as [|e2 es]; [reflexivity|].
  cbn [List.length]. specialize (IH post). cbn [List.length pred] in IH. rewrite IH; [reflexivity|discriminate|assumption].
Qed.

(** Events of a step that is not the first: no question. *)
Lemma later_new s s1 : Inv c s ->
  match s_pc s with Suspended _ | Clean _ _ _ => True | _ => False end ->
  (match s_pc s with Clean _ _ _ => ctl c s true | _ => tick c s end) = Some s1 ->
  exists new, s_log s1 = rev new ++ s_log s /\ forall n, ~ In (EAsk n) new.
Proof.
  intros HI Hpc H. destruct (s_pc s) as [|ph|ph kept rest| | | | | |] eqn:Epc; try contradiction.
  - unfold tick in H. rewrite Epc in H.
    assert (D : exists new, s_log (drain_top s) = rev new ++ s_log s /\ forall n, ~ In (EAsk n) new).
    { unfold drain_top. destruct (s_coros s); cbn.
      - exists [EAfterExec (s_erec s)]. split; [reflexivity|]. intros n [E|[]]; discriminate.
      - exists []. split; [reflexivity|]. intros n []. }
    destruct ph; inversion H; subst; [|exact D].
    unfold main_top. destruct (s_todo s); [exact D|]. exists [EOnTick (s_erec s)]. split; [reflexivity|].
    intros q [E|[]]; discriminate.
  - destruct (ctl_cases c s s1 HI H) as
      [ph' kept' sl' rest' n s' C1 C2 C3 C4|ph' kept' sl' rest' n s' C1 C2 C3 C4 C5
      |ph' kept' sl' rest' n s2 s' C1 C2 C3 C4 C5 C6|ph' kept' sl' rest' n rec s' C1 C2 C3 C4
      |ph' kept' sl' rest' n rec s' C1 C2 C3 C4|ph' kept' sl' rest' n rec o s2 s3 s' C1 C2 C3 C4 C5 C6
      |kept' s2 s' C1 C2 C3|kept' s2 s' C1 C2 C3|e s' C1 C2|e sl' rest' s' C1 C2 C3|s' C1 C2|sl' rest' s' C1 C2 C3];
      try congruence.
    + subst. eexists [_; _]. split; [reflexivity|]. intros q [E|[E|[]]]; discriminate.
    + subst. eexists [_; _]. split; [reflexivity|]. intros q [E|[E|[]]]; discriminate.
    + subst. eexists [_; _]. split; [reflexivity|]. intros q [E|[E|[]]]; discriminate.
    + subst. eexists [_]. split; [reflexivity|]. intros q [E|[]]; discriminate.
    + subst. eexists [_]. split; [reflexivity|]. intros q [E|[]]; discriminate.
    + subst. eexists [_; _]. split; [destruct (negb _); reflexivity|]. intros q [E|[E|[]]]; discriminate.
    + subst. exists []. split; [|intros m []]. unfold dispatch. destruct (_ && _); [reflexivity|].
      destruct (find_candidate _ _ _ _ _ _ _) as [[m|]|]; cbn [s_log set_pc];
        [| |reflexivity]; match goal with |- s_log (match ?x with _ => _ end) = _ => destruct x end; reflexivity.
    + subst. exists []. split; [reflexivity|]. intros q [].
Qed.

(** Nothing is allocated while a deferred job is executed by the control thread. *)
Lemma alloc_idle s : Inv c s -> may_allocate s = true -> deferred c = true -> idle (s_fut s).
Proof.
  intros HI Hm Hd n Hn. destruct (i_defer _ _ HI Hd n Hn) as (ph & sl & rest & Epc & En).
  unfold may_allocate in Hm. rewrite Epc in Hm. subst n.
  destruct (co_st (sl_coro sl)) as [|rec] eqn:Est.
  - pose proof (a_idle _ _ _ _ _ _ _ _ (pass_act c s ph [] sl rest HI Epc) (co_node (sl_coro sl))) as A.
    destruct A as (_ & A & _); [right; apply (first_In [] sl rest Est)|]. rewrite A in Hn. exact Hn.
  - destruct (s_fut s (co_node (sl_coro sl))); try discriminate Hm. exact Hn.
Qed.

(** A failing step that is not the first. *)
Lemma later_shadow z s s1 k new es rest :
  reachable c z s ->
  match s_pc s with Suspended _ | Clean _ _ _ => True | _ => False end ->
  (match s_pc s with Clean _ _ _ => ctl c s true | _ => tick c s end) = Some s1 ->
  new = rev (firstn (List.length (s_log s1) - List.length (s_log s)) (s_log s1)) ->
  es = firstn k new -> forallb may_precede es = true ->
  rest = (match s_pc s with
          | Clean _ kept rest => map (fun k => Slot (co_node k) k) kept ++ rest
          | _ => s_coros s
          end) ->
  covered (s_fut s) rest -> (deferred c = true -> idle (s_fut s)) ->
  Shadow z (set_pc (emits s es) (Unwind ExcVisitor rest)).
Proof.
  intros HR Hpc E1 Enew Ees Hp Erest Hcov Hdef. pose proof (r_inv c z s Hwf HR) as HI.
  assert (Hf : s_fut (emits s es) = s_fut s) by (rewrite emits_eq; reflexivity).
  assert (Htr : trace (set_pc (emits s es) (Unwind ExcVisitor rest)) = trace s ++ es).
  { change (trace (emits s es) = trace s ++ es). apply trace_app. }
  destruct (later_new s s1 HI Hpc E1) as (nw & L & NA).
  assert (nw = new) as ->.
  { rewrite Enew, L, log_app_new, rev_involutive. reflexivity. }
  destruct es as [|e0 es0] eqn:Ec.
  { exists s, (trace s), []. split; [exact HR|]. split; [symmetry; apply app_nil_r|]. split; [left; auto|].
    cbn. split; [exact Hdef|]. split; [exact Hcov|]. reflexivity. }
  rewrite <- Ec in *.
  assert (Hcb : Forall (fun e => is_callback e = true) es).
  { apply Forall_forall. intros e He. rewrite forallb_forall in Hp. specialize (Hp e He).
    unfold may_precede in Hp. destruct e; try exact Hp.
    exfalso. apply (NA n). rewrite Ees in He. rewrite <- (firstn_skipn k new). apply in_app_iff. left. exact He. }
  assert (V : step c s (LVisThrow (pred (List.length es))) = Some (set_pc (emits s es) (Unwind ExcVisitor rest))).
  { cbn [step].
    replace (match s_pc s with Created | Suspended _ => tick c s | Clean _ _ _ => ctl c s true | _ => None end)
      with (Some s1) by (rewrite <- E1; destruct (s_pc s); try contradiction; reflexivity).
    unfold visitor_throws. rewrite <- Enew. rewrite <- (firstn_skipn k new) at 1. rewrite <- Ees, cut_all.
    - rewrite Erest. reflexivity.
    - rewrite Ec. discriminate.
    - exact Hcb. }
  exists (set_pc (emits s es) (Unwind ExcVisitor rest)), (trace s ++ es), []. split.
  { destruct HR as [ls HR]. exists (ls ++ [LVisThrow (pred (List.length es))]). rewrite run_labels_app, HR.
    cbn [run_labels]. rewrite V. reflexivity. }
  split; [rewrite app_nil_r; exact Htr|]. split; [left; auto|].
  cbn [s_fut s_pc set_pc]. rewrite Hf. split; [exact Hdef|]. split; [exact Hcov|exact Htr].
Qed.

(** The failing step. *)
Lemma fail_shadow z s k x' : reachable c z s ->
  xstep c (XState s false) (XFail k) = Some x' -> x_nomem x' = true /\ Shadow z (x_s x') /\
  exists new, trace (x_s x') = trace s ++ new.
Proof.
  intros HR H. pose proof (r_inv c z s Hwf HR) as HI. cbn [xstep x_s] in H.
  destruct (may_allocate s) eqn:Hm; [|discriminate H].
  destruct (match s_pc s with Clean _ _ _ => ctl c s true | _ => tick c s end) as [s1|] eqn:E1; [|discriminate H].
  unfold alloc_fails in H.
  set (new := rev (firstn (List.length (s_log s1) - List.length (s_log s)) (s_log s1))) in H.
  set (rest := match s_pc s with
                  | Clean _ kept rest => map (fun k => Slot (co_node k) k) kept ++ rest
                  | _ => s_coros s
                  end) in H.
  cbv zeta in H.
  destruct (_ && _) eqn:Hk; [|discriminate H]. apply andb_true_iff in Hk. destruct Hk as [Hk Hp].
  cbn [option_map] in H. injection H as <-. cbn [x_s x_nomem]. split; [reflexivity|].
  assert (Hpc : match s_pc s with Created | Suspended _ | Clean _ _ _ => True | _ => False end).
  { unfold may_allocate in Hm. destruct (s_pc s); try exact I; discriminate Hm. }
  assert (Hcov : covered (s_fut s) rest).
  { intros n Hn. unfold rest. rewrite (rest_live s Hpc). apply (k_unfin _ _ _ _ (i_core _ _ HI)), Hn. }
  assert (Hdef : deferred c = true -> idle (s_fut s)) by (apply alloc_idle; assumption).
  set (es := firstn k new) in *.
  assert (Htr : trace (set_pc (emits s es) (Unwind ExcVisitor rest)) = trace s ++ es).
  { change (trace (emits s es) = trace s ++ es). apply trace_app. }
  split; [|exists es; exact Htr].
  assert (Hf : s_fut (emits s es) = s_fut s) by (rewrite emits_eq; reflexivity).
  destruct (s_pc s) as [|ph|ph kept r| | | | | |] eqn:Epc; try contradiction.
  - (* the first tick *)
    pose proof (i_pc _ _ HI) as P. unfold pc_inv in P. rewrite Epc in P.
    destruct P as (_ & _ & _ & _ & P5 & _ & P7).
    assert (R1 : reachable c z s1).
    { destruct HR as [ls HR]. exists (ls ++ [LTick]). rewrite run_labels_app, HR. cbn. rewrite E1. reflexivity. }
    assert (Hnew : new = trace s1).
    { unfold new, trace. rewrite P7. cbn [List.length]. rewrite Nat.sub_0_r, firstn_all. reflexivity. }
    exists s1, es, (skipn k new). split; [exact R1|]. split.
    { rewrite <- Hnew. unfold es. symmetry. apply firstn_skipn. }
    split; [right; cbn [s_fut set_pc]; split|].
    + intros n. cbn. rewrite Hf, P5. reflexivity.
    + intros n Hn. rewrite forallb_forall in Hp. specialize (Hp _ Hn). discriminate Hp.
    + cbn. rewrite Hf. split; [exact Hdef|]. split; [exact Hcov|].
      etransitivity; [exact Htr|]. unfold trace. rewrite P7. reflexivity.
  - apply (later_shadow z s s1 k new); try assumption; try reflexivity; rewrite Epc; first [assumption|exact I|reflexivity].
  - apply (later_shadow z s s1 k new); try assumption; try reflexivity; rewrite Epc; first [assumption|exact I|reflexivity].
Qed.

(** After the failure. *)
Lemma set_fut_same f (v : fstate) n m : (fun x => if x =? n then v else f x) m = if m =? n then v else f m.
Proof. reflexivity. Qed.

Lemma shadow_env z s n v ev s' : Shadow z s ->
  unfin (s_fut s n) -> (unfin v -> unfin (s_fut s n)) ->
  (forall s0, s_fut s0 = s_fut s -> reachable c z s0 -> reachable c z (set_fut (emit s0 ev) n v)) ->
  s' = set_fut (emit s ev) n v -> Shadow z s'.
Proof.
  intros (s0 & t & u & R & T & F & D & P) Hu Hv Hstep ->.
  destruct F as [[-> F]|[F _]]; [|rewrite F in Hu; destruct Hu].
  rewrite app_nil_r in T.
  assert (Hun : forall m, unfin (s_fut (set_fut (emit s ev) n v) m) -> unfin (s_fut s m)).
  { intros m. cbn. unfold upd. destruct (Nat.eqb_spec m n) as [->|]; auto. }
  exists (set_fut (emit s0 ev) n v), (t ++ [ev]), [].
  split; [apply Hstep; assumption|]. split; [unfold trace in *; cbn; rewrite T, app_nil_r; reflexivity|].
  split; [left; split; [reflexivity|]; cbn; rewrite F; reflexivity|].
  split; [intros Hd m Hm; exact (D Hd m (Hun m Hm))|].
  change (s_pc (set_fut (emit s ev) n v)) with (s_pc s).
  assert (Htr : forall x, trace s = x -> trace (set_fut (emit s ev) n v) = x ++ [ev]).
  { intros x <-. reflexivity. }
  destruct (s_pc s) as [| | |e rest|rest| |e| |b]; try contradiction.
  - destruct P as [P1 P2]. split; [intros m Hm; exact (P1 m (Hun m Hm))|exact (Htr _ P2)].
  - destruct P as [P1 P2]. split; [intros m Hm; exact (P1 m (Hun m Hm))|exact (Htr _ P2)].
  - destruct P as (_ & P1 & _). destruct (P1 n Hu).
  - destruct P as (P1 & _). destruct (P1 n Hu).
  - destruct b; try contradiction. destruct P as [P1 P2]. destruct (P1 n Hu).
Qed.

Lemma reach_step z s l s' : reachable c z s -> step c s l = Some s' -> reachable c z s'.
Proof. intros [ls H] E. exists (ls ++ [l]). rewrite run_labels_app, H. cbn [run_labels]. rewrite E. reflexivity. Qed.

Lemma covered_one s sl rest : (deferred c = true -> idle (s_fut s)) ->
  (forall n, if deferred c then s_fut s n <> FPending else s_fut s n <> FDeferred) ->
  covered (s_fut s) (sl :: rest) -> destroy_one s sl = true -> covered (s_fut s) rest.
Proof.
  intros D K C H n Hn. destruct (C n Hn) as [rec [E|E]]; [|exists rec; exact E].
  exfalso. unfold destroy_one in H. rewrite E in H. cbn in H.
  destruct (deferred c) eqn:Ed; [exact (D eq_refl n Hn)|].
  specialize (K n). destruct (s_fut s n); cbn in Hn; try contradiction; try discriminate H; congruence.
Qed.

Lemma shadow_kind z s : Shadow z s -> forall n, if deferred c then s_fut s n <> FPending else s_fut s n <> FDeferred.
Proof.
  intros (s0 & t & u & R & T & F & D & P) n. destruct F as [[_ F]|[F _]].
  - rewrite <- F. apply (k_kind _ _ _ _ (i_core _ _ (r_inv c z s0 Hwf R))).
  - rewrite F. destruct (deferred c); discriminate.
Qed.

Lemma shadow_step z s l s' : Shadow z s -> step c s l = Some s' -> Shadow z s'.
Proof.
  intros HS H. pose proof (shadow_kind z s HS) as HK. destruct l as [| | | |k|n|n o|zz]; cbn [step] in H.
  - destruct HS as (s0 & t & u & R & T & F & D & P). unfold tick in H.
    destruct (s_pc s); try contradiction; try discriminate H. injection H as <-.
    exists s0, t, u. cbn. destruct P as (_ & P1 & P2). auto 8.
  - destruct HS as (s0 & t & u & R & T & F & D & P).
    destruct (s_pc s); try contradiction; try discriminate H. injection H as <-.
    exists s0, t, u. cbn. destruct P as (P0 & P1 & P2).
    do 4 (split; [assumption|]). split; [|exact P2]. intros m Hm. destruct (P1 m Hm).
  - destruct HS as (s0 & t & u & R & T & F & D & P). unfold ctl in H.
    destruct (s_pc s) as [| | |e rest|rest| |e| |b]; try contradiction; try discriminate H.
    + destruct P as [P1 P2]. destruct rest as [|sl rest].
      * injection H as <-. exists s0, t, u. cbn.
        do 4 (split; [assumption|]). split; [reflexivity|]. split; [|exact P2].
        intros m Hm. destruct (P1 m Hm) as [rec []].
      * destruct (destroy_one s sl) eqn:Ed; [|discriminate H]. injection H as <-. exists s0, t, u. cbn.
        do 4 (split; [assumption|]). split; [|exact P2]. eapply covered_one; eassumption.
    + destruct P as [P1 P2]. destruct rest as [|sl rest].
      * injection H as <-. exists s0, t, u. cbn.
        do 4 (split; [assumption|]). split; [|].
        -- intros m Hm. destruct (P1 m Hm) as [rec []].
        -- unfold trace in *. cbn. rewrite P2. reflexivity.
      * destruct (destroy_one s sl) eqn:Ed; [|discriminate H]. injection H as <-. exists s0, t, u. cbn.
        do 4 (split; [assumption|]). split; [|exact P2]. eapply covered_one; eassumption.
  - destruct HS as (s0 & t & u & R & T & F & D & P). unfold ctl in H.
    destruct (s_pc s) as [| | |e rest|rest| |e| |b]; try contradiction; try discriminate H.
  - destruct HS as (s0 & t & u & R & T & F & D & P).
    destruct (s_pc s) as [| | |e rest|rest| |e| |b]; try contradiction; try discriminate H.
  - destruct (s_fut s n) eqn:E; try discriminate H. injection H as <-.
    eapply (shadow_env z s n FRunning (EBegin n)); [exact HS|rewrite E; exact I|rewrite E; auto| |reflexivity].
    intros s0 E0 R0. eapply (reach_step z s0 (LBegin n)); [exact R0|]. cbn [step]. rewrite E0, E. reflexivity.
  - destruct (s_fut s n) eqn:E; try discriminate H. injection H as <-.
    eapply (shadow_env z s n (FReady o) (EEnd n o)); [exact HS|rewrite E; exact I|intros []| |reflexivity].
    intros s0 E0 R0. eapply (reach_step z s0 (LEnd n o)); [exact R0|]. cbn [step]. rewrite E0, E. reflexivity.
  - injection H as <-. exact HS.
Qed.

Lemma shadow_alloc z s : Shadow z s -> may_allocate s = false.
Proof. intros (s0 & t & u & R & T & F & D & P). unfold may_allocate. destruct (s_pc s); try contradiction; reflexivity. Qed.

(** Every execution. *)
Definition Xinv (z : Z) (x : xstate) : Prop := if x_nomem x then Shadow z (x_s x) else reachable c z (x_s x).

Lemma xinv_step z x l x' : Xinv z x -> xstep c x l = Some x' -> Xinv z x'.
Proof.
  unfold Xinv. destruct x as [s b]. intros H E. destruct l as [l|k].
  - cbn in E. destruct (step c s l) as [s'|] eqn:E1; [|discriminate E]. injection E as <-. cbn in *.
    destruct b; [eapply shadow_step|eapply reach_step]; eassumption.
  - destruct b; cbn in H.
    + cbn in E. rewrite (shadow_alloc z s H) in E. discriminate E.
    + destruct (fail_shadow z s k x' H E) as (-> & G & _). exact G.
Qed.

Lemma xinv_run z : forall ls x x', Xinv z x -> xrun c x ls = Some x' -> Xinv z x'.
Proof.
  induction ls as [|l ls IH]; intros x x' H E; cbn in E; [injection E as <-; exact H|].
  destruct (xstep c x l) as [x1|] eqn:E1; [|discriminate E]. eapply IH; [|exact E]. eapply xinv_step; eassumption.
Qed.

Lemma xinv z x : xreachable c z x -> Xinv z x.
Proof. intros [ls E]. eapply xinv_run; [|exact E]. exists []. reflexivity. Qed.

(** ** The theorems *)
Lemma same_without : forall z ls, xrun c (xinit z) (map XDo ls) =
  option_map (fun s => XState s false) (run_labels c (init z) ls).
Proof. intros z ls. apply xrun_do. Qed.

Lemma nothing_new : forall z x, xreachable c z x ->
  exists s0 tr, reachable c z s0 /\ begins tr (trace s0) /\
    (xtrace x = tr \/ xtrace x = tr ++ [EDestroyed]).
Proof.
  intros z x HX. apply xinv in HX. unfold Xinv in HX. destruct x as [s [|]]; cbn in HX.
  - destruct HX as (s0 & t & u & R & T & F & D & P). exists s0, t. split; [exact R|]. split; [exists u; exact T|].
    unfold xtrace. cbn. destruct (s_pc s) as [| | |e rest|rest| |e| |b]; try contradiction; try tauto.
    destruct b; try contradiction. tauto.
  - exists s, (trace s). split; [exact HX|]. split; [exists []; symmetry; apply app_nil_r|]. left. reflexivity.
Qed.

Lemma shadow_over z s : Shadow z s -> idle (s_fut s) -> jobs_over (trace s).
Proof.
  intros (s0 & t & u & R & T & F & D & P) Hi n Hn.
  assert (Ht : trace s = t \/ trace s = t ++ [EDestroyed]).
  { destruct (s_pc s) as [| | |e rest|rest| |e| |b]; try contradiction; try tauto.
    destruct b; try contradiction. tauto. }
  assert (Hn' : In (ELaunch n) t).
  { destruct Ht as [E|E]; [rewrite <- E; exact Hn|]. rewrite E in Hn. apply in_app_iff in Hn. destruct Hn as [Hn|[Hn|[]]]; [exact Hn|discriminate Hn]. }
  assert (G : exists o, In (EEnd n o) t).
  { destruct F as [[-> F]|[F G]]; [|destruct (G n Hn')]. rewrite app_nil_r in T.
    pose proof (k_fut _ _ _ _ (i_core _ _ (r_inv c z s0 Hwf R)) n) as K. rewrite F in K. specialize (Hi n).
    rewrite <- T in *. unfold trace in Hn'. apply in_rev in Hn'.
    destruct (s_fut s n) eqn:Ef; cbn in Hi; try tauto.
    - destruct K as [K _]. destruct (K Hn').
    - exists o. unfold trace. apply -> in_rev. apply K. }
  destruct G as [o G]. exists o. destruct Ht as [Ht|Ht]; rewrite Ht; [exact G|]. apply in_app_iff. left. exact G.
Qed.

Lemma nomem_waits : forall z x, xreachable c z x ->
  xresult x = XNoMemory \/ In EDestroyed (xtrace x) -> jobs_over (xtrace x).
Proof.
  intros z x HX H. pose proof HX as HX0. apply xinv in HX. unfold Xinv in HX. destruct x as [s [|]]; cbn in HX.
  - apply (shadow_over z s HX).
    destruct HX as (s0 & t & u & R & T & F & D & P). unfold xresult, result, xtrace in H. cbn in H.
    assert (ND : In EDestroyed (trace s) -> trace s = t -> idle (s_fut s)).
    { intros Hd Et. rewrite Et in Hd. pose proof (r_inv c z s0 Hwf R) as HI0.
      assert (Hd0 : s_pc s0 = Destroyed).
      { apply (i_destr _ _ HI0). apply in_rev. change (In EDestroyed (trace s0)). rewrite T. apply in_app_iff. auto. }
      intros m Hm. destruct F as [[_ F]|[F _]]; [|rewrite F in Hm; exact Hm]. rewrite <- F in Hm.
      destruct (k_unfin _ _ _ _ (i_core _ _ HI0) m Hm) as [rec Hin]. pose proof (i_pc _ _ HI0) as Q.
      unfold pc_inv in Q. rewrite Hd0 in Q. destruct Q as [Q _]. unfold live in Hin. rewrite Hd0, Q in Hin. destruct Hin. }
    destruct (s_pc s) as [| | |e rest|rest| |e| |b]; try contradiction; try tauto.
    + destruct H as [H|H]; [discriminate H|]. apply ND; tauto.
    + destruct H as [H|H]; [discriminate H|]. apply ND; tauto.
    + destruct b; try contradiction. tauto.
  - unfold xresult, result in H. cbn in H. destruct H as [H|H].
    + destruct (s_pc s); discriminate H.
    + unfold xtrace in *. cbn in *. apply in_split in H. destruct H as (pre & post & E).
      destruct (destroyed_waits c z s pre post Hwf HX E) as [-> G].
      intros n Hn. rewrite E in Hn |- *. apply in_app_iff in Hn. destruct Hn as [Hn|[Hn|[]]]; [|discriminate Hn].
      destruct (G n Hn) as [o Ho]. exists o. apply in_app_iff. left. exact Ho.
Qed.

Lemma shadow_inactive z s : Shadow z s -> inactive (s_pc s) /\ s_pc s <> Finished.
Proof.
  intros (s0 & t & u & R & T & F & D & P). destruct (s_pc s) as [| | |e rest|rest| |e| |b]; try contradiction; cbn; split; try exact I; discriminate.
Qed.

Lemma xrun_nomem : forall ls x x', xrun c x ls = Some x' -> x_nomem x = true -> x_nomem x' = true.
Proof.
  induction ls as [|l ls IH]; intros x x' E H; cbn in E; [injection E as <-; exact H|].
  destruct (xstep c x l) as [x1|] eqn:E1; [|discriminate E]. eapply IH; [exact E|].
  destruct l as [l|k]; cbn in E1.
  - destruct (step c (x_s x) l); [|discriminate E1]. injection E1 as <-. exact H.
  - destruct (may_allocate _); [|discriminate E1].
    destruct (match s_pc (x_s x) with Clean _ _ _ => ctl c (x_s x) true | _ => tick c (x_s x) end); [|discriminate E1].
    unfold alloc_fails in E1. cbv zeta in E1. destruct (_ && _) in E1; [|discriminate E1]. injection E1 as <-. reflexivity.
Qed.

Lemma xrun_shadow z : forall ls x x', x_nomem x = true -> Shadow z (x_s x) -> xrun c x ls = Some x' ->
  exists ls', run_labels c (x_s x) ls' = Some (x_s x').
Proof.
  induction ls as [|l ls IH]; intros x x' Hm HS E; cbn in E; [injection E as <-; exists []; reflexivity|].
  destruct (xstep c x l) as [x1|] eqn:E1; [|discriminate E].
  destruct l as [l|k]; cbn in E1.
  - destruct (step c (x_s x) l) as [s1|] eqn:E2; [|discriminate E1]. injection E1 as <-.
    destruct (IH (XState s1 (x_nomem x)) x' Hm (shadow_step z _ _ _ HS E2) E) as [ls' G]. exists (l :: ls'). cbn. rewrite E2. exact G.
  - rewrite (shadow_alloc z _ HS) in E1. discriminate E1.
Qed.

Lemma nomem_for_good : forall z x k x1 ls x2, xreachable c z x ->
  xstep c x (XFail k) = Some x1 -> xrun c x1 ls = Some x2 ->
  (forall er, xresult x2 <> XRecord er) /\ (forall e, xresult x2 <> XThrow e) /\
  exists new, xtrace x2 = xtrace x1 ++ new /\ forall ev, In ev new -> by_a_job ev \/ ev = EDestroyed.
Proof.
  intros z x k x1 ls x2 HX E1 E2.
  assert (HX1 : Xinv z x1) by (eapply xinv_step; [apply xinv, HX|exact E1]).
  assert (Hm : x_nomem x1 = true).
  { cbn in E1. destruct (may_allocate _); [|discriminate E1].
    destruct (match s_pc (x_s x) with Clean _ _ _ => ctl c (x_s x) true | _ => tick c (x_s x) end); [|discriminate E1].
    unfold alloc_fails in E1. cbv zeta in E1. destruct (_ && _) in E1; [|discriminate E1]. injection E1 as <-. reflexivity. }
  unfold Xinv in HX1. rewrite Hm in HX1.
  destruct (xrun_shadow z ls x1 x2 Hm HX1 E2) as [ls' G].
  destruct (shadow_inactive z _ HX1) as [Hi Hn].
  pose proof (gone_run c ls' _ _ Hi Hn G) as Hn2.
  pose proof (xrun_nomem ls x1 x2 E2 Hm) as Hm2.
  split; [|split].
  - intros er Hr. unfold xresult, result in Hr. destruct (s_pc (x_s x2)); try discriminate Hr; [congruence|].
    rewrite Hm2 in Hr. discriminate Hr.
  - intros e Hr. unfold xresult, result in Hr. destruct (s_pc (x_s x2)); try discriminate Hr.
    rewrite Hm2 in Hr. discriminate Hr.
  - destruct (inactive_run c ls' _ _ Hi G) as (_ & new & T & N). exists new. split; [exact T|].
    intros ev Hev. specialize (N ev Hev). destruct ev; try contradiction; [left; exact I|left; exact I|right; reflexivity].
Qed.

(** The failing call returns once the jobs under way have ended. *)
Lemma shadow_idle z s : Shadow z s -> jobs_over (trace s) -> idle (s_fut s).
Proof.
  intros (s0 & t & u & R & T & F & D & P) HO n Hn.
  destruct F as [[-> F]|[F _]]; [|rewrite F in Hn; exact Hn]. rewrite app_nil_r in T.
  pose proof (k_fut _ _ _ _ (i_core _ _ (r_inv c z s0 Hwf R)) n) as K. rewrite F in K.
  assert (Ht : trace s = t \/ trace s = t ++ [EDestroyed]).
  { destruct (s_pc s) as [| | |e rest|rest| |e| |b]; try contradiction; try tauto.
    destruct b; try contradiction. tauto. }
  assert (HL : In (ELaunch n) (s_log s0) -> exists o, In (EEnd n o) (s_log s0)).
  { intros H. destruct (HO n) as [o Ho].
    - destruct Ht as [Ht|Ht]; rewrite Ht, <- T; [|apply in_app_iff; left]; unfold trace; apply -> in_rev; exact H.
    - exists o. apply in_rev. change (In (EEnd n o) (trace s0)). rewrite T.
      destruct Ht as [Ht|Ht]; rewrite Ht in Ho; [exact Ho|]. apply in_app_iff in Ho. destruct Ho as [Ho|[Ho|[]]]; [exact Ho|discriminate Ho]. }
  destruct (s_fut s n); cbn in Hn, K; try contradiction; destruct K as (K1 & K2 & K3);
    destruct (HL K1) as [o Ho]; exact (K3 o Ho).
Qed.

Lemma unwinds z e : forall rest s, idle (s_fut s) -> s_pc s = Unwind e rest -> Shadow z s ->
  exists m s', xrun c (XState s true) (repeat (XDo LCtl) m) = Some (XState s' true) /\
    s_pc s' = Failed e /\ trace s' = trace s.
Proof.
  induction rest as [|sl rest IH]; intros s Hi Epc HS.
  - exists 1, (set_pc (set_coros s []) (Failed e)). cbn. unfold ctl. rewrite Epc. cbn. auto.
  - assert (Hd : destroy_one s sl = true).
    { unfold destroy_one. destruct (co_st (sl_coro sl)); [reflexivity|].
      specialize (Hi (co_node (sl_coro sl))). destruct (s_fut s _); try reflexivity; destruct (Hi I). }
    assert (E : step c s LCtl = Some (set_pc s (Unwind e rest))) by (cbn; unfold ctl; rewrite Epc, Hd; reflexivity).
    destruct (IH (set_pc s (Unwind e rest)) Hi eq_refl (shadow_step z _ _ _ HS E)) as (m & s' & G1 & G2 & G3).
    exists (S m), s'. cbn [repeat xrun xstep x_s x_nomem]. rewrite E. auto.
Qed.

Lemma inner_unwind : forall ls s s' e rest, s_pc s = Unwind e rest -> forallb inner_label ls = true ->
  run_labels c s ls = Some s' -> (exists r, s_pc s' = Unwind e r) \/ s_pc s' = Failed e.
Proof.
  assert (HF : forall ls s s' e, s_pc s = Failed e -> forallb inner_label ls = true ->
    run_labels c s ls = Some s' -> s_pc s' = Failed e).
  { induction ls as [|l ls IH]; intros s s' e Epc HL H; cbn in H; [injection H as <-; exact Epc|].
    cbn in HL. apply andb_true_iff in HL. destruct HL as [HL1 HL2].
    destruct (step c s l) as [s1|] eqn:E; [|discriminate H]. apply (IH s1); [|exact HL2|exact H].
    destruct l; cbn in E, HL1; try discriminate HL1; unfold ctl in E; try rewrite Epc in E; try discriminate E.
    - destruct (s_fut s n); try discriminate E. injection E as <-. exact Epc.
    - destruct (s_fut s n); try discriminate E. injection E as <-. exact Epc.
    - injection E as <-. exact Epc. }
  induction ls as [|l ls IH]; intros s s' e rest Epc HL H; cbn in H; [injection H as <-; left; eauto|].
  cbn in HL. apply andb_true_iff in HL. destruct HL as [HL1 HL2].
  destruct (step c s l) as [s1|] eqn:E; [|discriminate H].
  destruct l; cbn in E, HL1; try discriminate HL1; unfold ctl in E; try rewrite Epc in E; try discriminate E.
  - destruct rest as [|sl rest].
    + injection E as <-. right. eapply HF; [|exact HL2|exact H]. reflexivity.
    + destruct (destroy_one s sl); [|discriminate E]. injection E as <-. eapply IH; [|exact HL2|exact H]. reflexivity.
  - destruct (s_fut s n); try discriminate E. injection E as <-. eapply IH; [|exact HL2|exact H]. exact Epc.
  - destruct (s_fut s n); try discriminate E. injection E as <-. eapply IH; [|exact HL2|exact H]. exact Epc.
  - injection E as <-. eapply IH; [|exact HL2|exact H]. exact Epc.
Qed.

Lemma fail_unwind x k x1 : xstep c x (XFail k) = Some x1 ->
  x_nomem x1 = true /\ exists rest, s_pc (x_s x1) = Unwind ExcVisitor rest.
Proof.
  intros E1. cbn in E1. destruct (may_allocate _); [|discriminate E1].
  destruct (match s_pc (x_s x) with Clean _ _ _ => ctl c (x_s x) true | _ => tick c (x_s x) end); [|discriminate E1].
  unfold alloc_fails in E1. cbv zeta in E1. destruct (_ && _) in E1; [|discriminate E1]. injection E1 as <-.
  split; [reflexivity|]. eexists. reflexivity.
Qed.

Lemma nomem_returns : forall z x k x1 ls x2, xreachable c z x ->
  xstep c x (XFail k) = Some x1 -> forallb inner_label ls = true -> xrun c x1 (map XDo ls) = Some x2 ->
  jobs_over (xtrace x2) ->
  exists m x3, xrun c x2 (repeat (XDo LCtl) m) = Some x3 /\ xresult x3 = XNoMemory /\ xtrace x3 = xtrace x2.
Proof.
  intros z x k x1 ls x2 HX E1 HL E2 HO.
  destruct (fail_unwind x k x1 E1) as (Hm & rest & Epc).
  assert (HX1 : Xinv z x1) by (eapply xinv_step; [apply xinv, HX|exact E1]).
  assert (HX2 : Xinv z x2) by (eapply xinv_run; [exact HX1|exact E2]).
  pose proof (xrun_nomem _ _ _ E2 Hm) as Hm2. unfold Xinv in HX2. rewrite Hm2 in HX2.
  rewrite xrun_do in E2. destruct (run_labels c (x_s x1) ls) as [s2|] eqn:E3; [|discriminate E2].
  cbn in E2. injection E2 as <-. cbn in Hm2, HX2. unfold xtrace in HO. cbn in HO. rewrite Hm.
  destruct (inner_unwind ls _ s2 _ _ Epc HL E3) as [[r Ep]|Ep].
  - destruct (unwinds z _ r s2 (shadow_idle z s2 HX2 HO) Ep HX2) as (m & s' & G1 & G2 & G3).
    exists m, (XState s' true). split; [exact G1|]. split; [|exact G3].
    unfold xresult, result. cbn. rewrite G2. reflexivity.
  - exists 0, (XState s2 true). split; [reflexivity|]. split; [|reflexivity].
    unfold xresult, result. cbn. rewrite Ep. reflexivity.
Qed.

(** The failure is the last thing the library does. *)
Lemma nomem_cause : forall z ls x, xrun c (xinit z) ls = Some x -> xresult x = XNoMemory ->
  exists ls1 k ls2 s x1, ls = map XDo ls1 ++ XFail k :: map XDo ls2 /\
    run_labels c (init z) ls1 = Some s /\ xstep c (XState s false) (XFail k) = Some x1 /\
    xrun c x1 (map XDo ls2) = Some x.
Proof.
  intros z ls x E R.
  assert (Hm : x_nomem x = true).
  { unfold xresult in R. destruct (result (x_s x)); try discriminate R. destruct (x_nomem x); [reflexivity|discriminate R]. }
  assert (G : forall ls s, reachable c z s -> xrun c (XState s false) ls = Some x ->
    exists ls1 k ls2 s' x1, ls = map XDo ls1 ++ XFail k :: map XDo ls2 /\
    run_labels c s ls1 = Some s' /\ xstep c (XState s' false) (XFail k) = Some x1 /\
    xrun c x1 (map XDo ls2) = Some x).
  { clear E ls. induction ls as [|l ls IH]; intros s HR E; cbn [xrun] in E.
    - injection E as <-. discriminate Hm.
    - destruct (xstep c (XState s false) l) as [x1|] eqn:E1; [|discriminate E]. destruct l as [l|k].
      + cbn in E1. destruct (step c s l) as [s1|] eqn:E2; [|discriminate E1]. injection E1 as <-.
        destruct (IH s1 (reach_step z s l s1 HR E2) E) as (ls1 & k & ls2 & s' & x1 & -> & G1 & G2 & G3).
        exists (l :: ls1), k, ls2, s', x1. cbn [map app run_labels]. rewrite E2. auto.
      + assert (HD : exists ls2, ls = map XDo ls2).
        { destruct (fail_shadow z s k x1 HR E1) as (M & HS & _). clear IH E1.
          revert x1 M HS E. induction ls as [|l ls IH]; intros x1 M HS E; [exists []; reflexivity|].
          cbn [xrun] in E. destruct (xstep c x1 l) as [x2|] eqn:E1; [|discriminate E]. destruct l as [l|j].
          - cbn in E1. destruct (step c (x_s x1) l) as [s1|] eqn:E2; [|discriminate E1]. injection E1 as <-.
            destruct (IH (XState s1 (x_nomem x1)) M (shadow_step z _ _ _ HS E2) E) as [ls2 ->].
            exists (l :: ls2). reflexivity.
          - cbn in E1. rewrite (shadow_alloc z _ HS) in E1. discriminate E1. }
        destruct HD as [ls2 ->]. exists [], k, ls2, s, x1. auto. }
  apply (G ls (init z)); [exists []; reflexivity|exact E].
Qed.
End Facts.

(** ** What is true of all traces stays true *)
Lemma split_end : forall (pre post tr : list event) e, pre ++ post = tr ++ [e] ->
  (exists q, tr = pre ++ q /\ post = q ++ [e]) \/ (pre = tr ++ [e] /\ post = []).
Proof.
  intros pre post tr e H. destruct post as [|p post] using rev_ind.
  - right. rewrite app_nil_r in H. auto.
  - left. clear IHpost. rewrite app_assoc in H. apply app_inj_tail in H. destruct H as [H ->].
    exists post. auto.
Qed.

Section Carry.
Variable c : config.
Hypothesis Hwf : wf_dag (c_dag c).

Lemma carry_point z x pre e post : xreachable c z x -> xtrace x = pre ++ e :: post -> e <> EDestroyed ->
  exists s0 post', reachable c z s0 /\ trace s0 = pre ++ e :: post' /\
    forall ev, In ev post -> In ev post' \/ ev = EDestroyed.
Proof.
  intros HX E He. destruct (nothing_new c Hwf z x HX) as (s0 & tr & R & [more M] & [T|T]).
  - exists s0, (post ++ more). split; [exact R|]. split.
    + rewrite M, <- T, E, <- app_assoc. reflexivity.
    + intros ev H. left. apply in_app_iff. left. exact H.
  - rewrite T in E. symmetry in E. replace (pre ++ e :: post) with ((pre ++ [e]) ++ post) in E by (rewrite <- app_assoc; reflexivity).
    destruct (split_end _ _ _ _ E) as [(q & E1 & E2)|[E1 _]].
    + exists s0, (q ++ more). split; [exact R|]. split.
      * rewrite M, E1, <- !app_assoc. reflexivity.
      * intros ev H. rewrite E2 in H. apply in_app_iff in H. destruct H as [H|[<-|[]]]; [left|right; reflexivity].
        apply in_app_iff. left. exact H.
    + apply app_inj_tail in E1. destruct E1 as [_ E1]. destruct (He E1).
Qed.

Lemma nomem_order : forall z x a b pre post, xreachable c z x ->
  clos_trans nid (runs_after (c_dag c)) a b -> xtrace x = pre ++ EBegin a :: post ->
  recorded pre b /\ (In (EBegin b) pre -> exists o, In (EEnd b o) pre) /\ ~ In (EBegin b) post.
Proof.
  intros z x a b pre post HX HT E.
  destruct (carry_point z x pre (EBegin a) post HX E) as (s0 & post' & R & T & P); [discriminate|].
  destruct (transitive_order c z s0 a b pre post' Hwf R HT T) as (G1 & G2 & G3).
  split; [exact G1|]. split; [exact G2|]. intros H. destruct (P _ H) as [H'|H']; [exact (G3 H')|discriminate H'].
Qed.

Lemma nomem_exclusion : forall z x pre post n m r, xreachable c z x -> xtrace x = pre ++ post ->
  In n (d_nodes (c_dag c)) -> In m (d_nodes (c_dag c)) ->
  In (n_id n) (running pre) -> In (n_id m) (running pre) ->
  In r (t_resources (c_task c (n_task n))) -> In r (t_resources (c_task c (n_task m))) -> n = m.
Proof.
  intros z x pre post n m r HX E Hn Hm Rn Rm Tn Tm.
  destruct (nothing_new c Hwf z x HX) as (s0 & tr & R & [more M] & [T|T]).
  - apply (resource_exclusion_nodes c z s0 pre (post ++ more) n m r Hwf R); try assumption.
    rewrite M, <- T, E, <- app_assoc. reflexivity.
  - rewrite T in E. symmetry in E. destruct (split_end _ _ _ _ E) as [(q & E1 & _)|[E1 _]].
    + apply (resource_exclusion_nodes c z s0 pre (q ++ more) n m r Hwf R); try assumption.
      rewrite M, E1, <- app_assoc. reflexivity.
    + assert (HR : running pre = running tr) by (rewrite E1; unfold running; rewrite fold_left_app; reflexivity).
      rewrite HR in Rn, Rm.
      apply (resource_exclusion_nodes c z s0 tr more n m r Hwf R); assumption.
Qed.

Lemma nomem_once : forall z x pre n post, xreachable c z x -> xtrace x = pre ++ EBegin n :: post ->
  In n (node_ids (c_dag c)) /\ ~ In (EBegin n) pre /\ ~ In (EBegin n) post.
Proof.
  intros z x pre n post HX E.
  destruct (carry_point z x pre (EBegin n) post HX E) as (s0 & post' & R & T & P); [discriminate|].
  destruct (at_most_once c z s0 pre n post' Hwf R T) as (G1 & G2 & G3).
  split; [exact G1|]. split; [exact G2|]. intros H. destruct (P _ H) as [H'|H']; [exact (G3 H')|discriminate H'].
Qed.
End Carry.
