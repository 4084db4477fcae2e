(** The times of run(). *)
From Coq Require Import Lia.
From Verif Require Import Model.Common Model.Records Model.Jobs Model.TaskSet Model.Dag Model.Sched Model.Exec Model.RunLoop
     Spec.Graph Spec.Trace Spec.Timing Proofs.Sets Proofs.TraceFacts Proofs.ExecInv Proofs.ExecStep Proofs.ExecCtl Proofs.StepCases
     Proofs.Ticks Proofs.SharpTicks Proofs.OnTick Proofs.ExecProps3.
Open Scope nat_scope.
Open Scope list_scope.

Lemma tick_to_run c : forall ls s s', tick_to c s ls = Some s' ->
  run_labels c s ls = Some s' /\ forallb inner_label ls = true /\ tick_running s' = false.
Proof.
  induction ls as [|l ls IH]; intros s s' E; cbn [tick_to] in E.
  - destruct (tick_running s) eqn:Et; [discriminate|]. injection E as <-. auto.
  - destruct (tick_running s) eqn:Et; [|discriminate]. destruct (step c s l) as [s1|] eqn:E1; [|discriminate].
    destruct (IH _ _ E) as (A & B & C). cbn [run_labels forallb]. rewrite E1. repeat split; auto.
    rewrite B, andb_true_r. destruct l; try reflexivity; exfalso; cbn in E1; unfold tick in E1; unfold tick_running in Et;
      destruct (s_pc s); discriminate.
Qed.

Lemma loop_is_run c p s now next ts r s' fin : run_loop c p s now next ts r s' fin -> run_call c s r s'.
Proof.
  induction 1 as [s now next Hd|s now next ls1 s1 b l s2 ls2 s3 e ts r s4 fin Hd H1 E1 _ _ Hl E2 E3 _ _ IH].
  - apply RunDone, Hd.
  - destruct (tick_to_run c _ _ _ E3) as (A & B & C). eapply RunTick; eassumption.
Qed.

Open Scope Z_scope.
Lemma loop_schedule c p s now next ts r s' fin : run_loop c p s now next ts r s' fin -> forall i b e,
  nth_error ts i = Some (b, e) -> now <= b /\ next + Z.of_nat i * p <= b /\ b <= e <= fin /\
  (forall b' e', nth_error ts (S i) = Some (b', e') -> e <= b').
Proof.
  assert (Fin : forall s now next ts r s' fin, run_loop c p s now next ts r s' fin -> now <= fin).
  { induction 1; lia. }
  induction 1 as [s now next Hd|s now next ls1 s1 b0 l s2 ls2 s3 e0 ts r s4 fin Hd H1 E1 Hb1 Hb2 Hl E2 E3 He HR IH]; intros i b e E.
  - destruct i; discriminate.
  - destruct i as [|i]; cbn [nth_error] in E.
    + injection E as <- <-. pose proof (Fin _ _ _ _ _ _ _ HR). split; [exact Hb1|]. split; [lia|]. split; [lia|].
      intros b' e' E. exact (proj1 (IH 0%nat b' e' E)).
    + destruct (IH _ _ _ E) as (A & B & C & D). split; [lia|]. split; [lia|]. split; [exact C|exact D].
Qed.

Lemma begun_cons t b e ts : begun_before t ((b, e) :: ts) = ((if (b <? t)%Z then 1 else 0) + begun_before t ts)%nat.
Proof. unfold begun_before. cbn. destruct (b <? t); reflexivity. Qed.

(** The last of the ticks that begin before [t] is the [begun_before]-th or a later one. *)
Lemma begun_last t : forall ts, begun_before t ts <> 0%nat -> exists i b e, nth_error ts i = Some (b, e) /\ b < t /\ (begun_before t ts <= S i)%nat.
Proof.
  induction ts as [|[b e] ts IH]; intros H; [destruct H; reflexivity|]. rewrite begun_cons in *.
  destruct (begun_before t ts) as [|k] eqn:Ek.
  - destruct (b <? t) eqn:Eb; [|destruct H; reflexivity]. apply Z.ltb_lt in Eb. exists 0%nat, b, e. repeat split; auto.
  - destruct IH as (i & b' & e' & A & B & C); [discriminate|]. exists (S i), b', e'. repeat split; auto.
    destruct (b <? t); lia.
Qed.

Lemma loop_rate c p s t0 ts r s' fin d : 0 <= p -> run_at c p s t0 ts r s' fin -> begun_before (t0 + d) ts <> 0%nat ->
  (Z.of_nat (begun_before (t0 + d) ts) - 1) * p < d.
Proof.
  intros Hp H Hk. destruct (begun_last _ _ Hk) as (i & b & e & A & B & C).
  destruct (loop_schedule _ _ _ _ _ _ _ _ _ H _ _ _ A) as (_ & D & _).
  assert (Z.of_nat (begun_before (t0 + d) ts) - 1 <= Z.of_nat i) by lia. nia.
Qed.

Lemma on_time_exact p : forall ts now next i b e, on_time p now next ts -> ticks_within p ts -> now <= next ->
  nth_error ts i = Some (b, e) -> b = next + Z.of_nat i * p.
Proof.
  induction ts as [|[b0 e0] ts IH]; intros now next i b e H W Hn E; [destruct i; discriminate|]. destruct H as [H1 H2].
  destruct i as [|i]; cbn [nth_error] in E.
  - injection E as <- <-. lia.
  - assert (W0 : e0 - b0 <= p) by (apply W; left; reflexivity).
    rewrite (IH e0 (next + p) i b e H2); [lia| |lia|exact E]. intros x y I. apply W. right. exact I.
Qed.

Lemma on_time_fin c p s now next ts r s' fin : run_loop c p s now next ts r s' fin -> on_time p now next ts -> ticks_within p ts ->
  now <= next -> ts <> [] -> fin <= next + Z.of_nat (length ts) * p.
Proof.
  induction 1 as [s now next Hd|s now next ls1 s1 b0 l s2 ls2 s3 e0 ts r s4 fin Hd H1 E1 Hb1 Hb2 Hl E2 E3 He HR IH]; intros T W Hn Hts.
  - destruct Hts; reflexivity.
  - destruct T as [T1 T2]. assert (W0 : e0 - b0 <= p) by (apply W; left; reflexivity).
    destruct ts as [|x ts].
    + inversion HR; subst. cbn [length]. change (Z.of_nat 1) with 1. lia.
    + assert (fin <= next + p + Z.of_nat (length (x :: ts)) * p).
      { apply IH; [exact T2|intros a b I; apply W; right; exact I|lia|discriminate]. }
      cbn [length] in *. rewrite !Nat2Z.inj_succ in *. nia.
Qed.
Close Scope Z_scope.

(** * How many ticks *)

Lemma ticks_app a b : ticks (a ++ b) = ticks a + ticks b.
Proof. unfold ticks. rewrite filter_app, app_length. reflexivity. Qed.
Lemma inner_ticks ls : forallb inner_label ls = true -> ticks ls = 0.
Proof.
  unfold ticks. induction ls as [|l ls IH]; [reflexivity|]. cbn. intros H. apply andb_true_iff in H. destruct H as [H1 H2].
  destruct l; try discriminate; cbn; exact (IH H2).
Qed.
Lemma env_ticks ls : forallb env_label ls = true -> ticks ls = 0.
Proof.
  unfold ticks. induction ls as [|l ls IH]; [reflexivity|]. cbn. intros H. apply andb_true_iff in H. destruct H as [H1 H2].
  destruct l; try discriminate; cbn; exact (IH H2).
Qed.

(** A tick that an exception is leaving ends the execution. *)
Lemma unwind_fails c : forall ls e rest s s', s_pc s = Unwind e rest -> tick_to c s ls = Some s' -> s_pc s' = Failed e.
Proof.
  induction ls as [|l ls IH]; intros e rest s s' Ep E; cbn [tick_to] in E; unfold tick_running in E; rewrite Ep in E; [discriminate|].
  destruct (step c s l) as [s1|] eqn:E1; [|discriminate].
  assert (G : (exists r1, s_pc s1 = Unwind e r1) \/ s_pc s1 = Failed e).
  { destruct l; cbn in E1; unfold tick, ctl in E1; rewrite ?Ep in E1; try discriminate.
    - destruct rest as [|sl rest]; [injection E1 as <-; right; reflexivity|].
      destruct (destroy_one s sl); [|discriminate]. injection E1 as <-. left. eexists. reflexivity.
    - destruct (s_fut s n); try discriminate. injection E1 as <-. left. exists rest. exact Ep.
    - destruct (s_fut s n); try discriminate. injection E1 as <-. left. exists rest. exact Ep.
    - injection E1 as <-. left. exists rest. exact Ep. }
  destruct G as [[r1 G]|G]; [exact (IH _ _ _ _ G E)|].
  destruct ls as [|l' ls]; cbn [tick_to] in E; unfold tick_running in E; rewrite G in E; [|discriminate].
  injection E as <-. exact G.
Qed.

Lemma throw_unwinds c s k s' : step c s (LVisThrow k) = Some s' -> exists rest, s_pc s' = Unwind ExcVisitor rest.
Proof.
  intros E. cbn [step] in E.
  destruct (match s_pc s with Created | Suspended _ => tick c s | Clean _ _ _ => ctl c s true | _ => None end) as [s1|]; [|discriminate].
  unfold visitor_throws in E. destruct (cut_at k _) as [es|]; [|discriminate]. inversion E. eexists. reflexivity.
Qed.

Lemma loop_labels c p s now next ts r s' fin : run_loop c p s now next ts r s' fin ->
  exists ls, run_labels c s ls = Some s' /\ r = result s' /\ done s' = true /\ ticks ls <= length ts /\
    ((forall er, r <> RRecord er) \/ length ts = ticks ls).
Proof.
  induction 1 as [s now next Hd|s now next ls1 s1 b l s2 ls2 s3 e ts r s4 fin Hd H1 E1 _ _ Hl E2 E3 _ HR IH].
  - exists []. repeat split; auto. 
  - destruct IH as (ls & A & B & C & D & F). destruct (tick_to_run c _ _ _ E3) as (G1 & G2 & G3).
    exists (ls1 ++ l :: ls2 ++ ls). split.
    { rewrite run_labels_app, E1. cbn [run_labels]. rewrite E2. rewrite run_labels_app, G1. exact A. }
    split; [exact B|]. split; [exact C|].
    assert (T : ticks (ls1 ++ l :: ls2 ++ ls) = (if is_tick l then 1 else 0) + ticks ls).
    { rewrite ticks_app, (env_ticks ls1 H1). change (l :: ls2 ++ ls) with ([l] ++ ls2 ++ ls). rewrite !ticks_app, (inner_ticks ls2 G2).
      unfold ticks at 1. cbn [filter]. destruct (is_tick l); reflexivity. }
    rewrite T. cbn [length]. destruct Hl as [->|[k ->]]; cbn [is_tick].
    + split; [lia|]. destruct F as [F|F]; [left; exact F|right; lia].
    + split; [lia|]. left. intros er Er. destruct (throw_unwinds c s1 k s2 E2) as [rest Ep].
      pose proof (unwind_fails c _ _ _ _ _ Ep E3) as Ef. inversion HR; subst.
      * unfold result in Er. rewrite Ef in Er. discriminate.
      * match goal with X : done s3 = false |- _ => unfold done in X; rewrite Ef in X; discriminate end.
Qed.

(** Each on_tick is a tick of its own, and two more ticks are needed at the end. *)
Definition least_inv (c : config) (t : nat) (s : state) : Prop :=
  let k := on_ticks (s_log s) in
  match s_pc s with
  | Created => k = 0 /\ t = 0
  | Clean PMain _ _ => k <= t /\ (c_threads c = 0 -> t = k)
  | Suspended PMain => (k <= t /\ (c_threads c = 0 -> t = k)) /\ s_coros s <> []
  | Clean PDrain _ _ | Suspended PDrain => S k <= t /\ (c_threads c = 0 -> t = S k)
  | Finished => node_ids (c_dag c) <> [] -> S (S k) <= t /\ (c_threads c = 0 -> t = S (S k))
  | _ => True
  end.

Lemma least_step c t s l s' : wf_dag (c_dag c) -> Inv c s -> least_inv c t s -> step c s l = Some s' ->
  least_inv c (t + (if is_tick l then 1 else 0)) s'.
Proof.
  intros Hwf HI D E.
  assert (HN : forall t, match s_pc s' with Created | Suspended _ | Clean _ _ _ | Finished => False | _ => True end -> least_inv c t s').
  { intros t'. unfold least_inv. destruct (s_pc s'); tauto. }
  assert (HF : s_pc s' = s_pc s -> s_coros s' = s_coros s -> on_ticks (s_log s') = on_ticks (s_log s) -> least_inv c (t + 0) s').
  { intros X1 X2 X3. rewrite Nat.add_0_r. unfold least_inv in *. rewrite X1, X2, X3. exact D. }
  assert (HC : forall ph k r k' r', s_pc s = Clean ph k r -> s_pc s' = Clean ph k' r' ->
               on_ticks (s_log s') = on_ticks (s_log s) -> least_inv c (t + 0) s').
  { intros ph k r k' r' X1 X2 X4. rewrite Nat.add_0_r. unfold least_inv in *. rewrite X1 in D. rewrite X2, X4. exact D. }
  destruct l; cbn [step is_tick] in E |- *.
  - unfold tick in E. destruct (s_pc s) as [|ph| | | | | | |] eqn:Epc; try discriminate.
    + inversion E; subst s'. destruct (start_spec c Hwf s HI Epc) as [R _].
      inversion R as [? ? cyc L1 L2 L3|? ? m pre post L2 L1 L3 L4 L5 L6 L7|? ? m pre post L2 L1 L3 L4 L5 L6 L7
                 |? ? s1 evd todo Es T1 El Ep Et Hso Ec]; subst.
      * apply HN. rewrite L2. exact I.
      * apply HN. rewrite L2. exact I.
      * apply HN. rewrite L2. exact I.
      * rewrite Es. unfold main_top, drain_top. rewrite Ec.
        pose proof (on_ticks_log3 c evd (s_todo s1)) as Hk. rewrite <- El in Hk.
        destruct (s_todo s1) as [|x l'] eqn:Et1.
        -- unfold least_inv. cbn -[on_ticks]. intros Hne. exfalso. destruct (node_ids (c_dag c)) as [|m ids] eqn:Ei; [destruct Hne; reflexivity|].
           match goal with H : forall n, In n [] <-> _ |- _ => destruct (proj2 (H m)); left; reflexivity end.
        -- unfold least_inv. cbn -[on_ticks].
           unfold least_inv in D. rewrite Epc in D.
           change (on_ticks (EOnTick (s_erec s1) :: s_log s1)) with (S (on_ticks (s_log s1))). lia.
    + unfold least_inv in D. rewrite Epc in D.
      destruct ph; inversion E; subst s'.
      * destruct D as [D1 D2]. unfold main_top, drain_top. destruct (s_todo s) as [|x l'].
        -- destruct (s_coros s); [destruct D2; reflexivity|]. unfold least_inv. cbn -[on_ticks]. lia.
        -- unfold least_inv. cbn -[on_ticks]. change (on_ticks (EOnTick (s_erec s) :: s_log s)) with (S (on_ticks (s_log s))). lia.
      * unfold drain_top. destruct (s_coros s) as [|sl rest] eqn:Ec; unfold least_inv; cbn -[on_ticks].
        -- change (on_ticks (EAfterExec (s_erec s) :: s_log s)) with (on_ticks (s_log s)). lia.
        -- split; [lia|]. intros H0. exfalso. pose proof (i_pc _ _ HI) as P. unfold pc_inv in P. rewrite Epc in P.
           destruct P as [_ [_ [P1 P2]]].
           assert (L : In (sl_coro sl) (live s)) by (unfold live; rewrite Epc, Ec; left; reflexivity).
           refine (P2 _ _ L (proj2 (P1 eq_refl) _ L)). unfold deferred. rewrite H0. reflexivity.
    + inversion E; subst. apply HN. exact I.
    + inversion E; subst. apply HN. exact I.
  - destruct (s_pc s); try discriminate; inversion E; subst; apply HN; exact I.
  - destruct (ctl_cases c s s' HI E) as
      [ph kept sl rest n s' Epc Esl _ Es|ph kept sl rest n s' Epc Esl _ _ Es
      |ph kept sl rest n s1 s' Epc Esl _ _ Es1 Es|ph kept sl rest n rec s' Epc Esl _ Es
      |ph kept sl rest n rec s' Epc Esl _ Es|ph kept sl rest n rec o s1 s2 s' Epc Esl _ Es1 Es2 Es
      |kept s1 s' Epc Es1 Es|kept s1 s' Epc Es1 Es|e s' Epc Es|e sl rest s' Epc _ Es|s' Epc Es|sl rest s' Epc _ Es].
    + eapply HC; [exact Epc|subst s'; reflexivity..].
    + eapply HC; [exact Epc|subst s'; reflexivity..].
    + eapply HC; [exact Epc|subst s' s1; reflexivity..].
    + apply HF; subst s'; reflexivity.
    + eapply HC; [exact Epc|subst s'; reflexivity..].
    + eapply HC; [exact Epc|subst s' s1 s2; destruct (negb _); reflexivity..].
    + subst s1. unfold least_inv in D. rewrite Epc in D.
      destruct (dispatch_cases c s kept s' Hwf HI Epc Es) as [s' X1 X2 X3 X4|m0 s' X1 X2 X3 X4|s' X1 X2 X3]; clear Es;
        subst s'; unfold least_inv; cbn -[on_ticks]; (split; [lia|]); try exact X2.
      intros H. destruct (compact (s_coros s) kept); discriminate.
    + subst s1 s'. unfold least_inv in *. rewrite Epc in D. cbn -[on_ticks]. lia.
    + subst s'. apply HN. exact I.
    + subst s'. apply HN. exact I.
    + subst s'. apply HN. exact I.
    + subst s'. apply HN. exact I.
  - destruct (launchfail_cases c s s' HI E) as [ph [kept [sl [rest [n [Epc [_ [_ [Ep _]]]]]]]]].
    apply HN; rewrite Ep; exact I.
  - destruct (throw_unwinds c s k s' E) as [rest Ep]. apply HN; rewrite Ep; exact I.
  - destruct (s_fut s n); try discriminate. inversion E; subst. apply HF; reflexivity.
  - destruct (s_fut s n); try discriminate. inversion E; subst. apply HF; reflexivity.
  - inversion E; subst. apply HF; reflexivity.
Qed.

Lemma least_run c : wf_dag (c_dag c) -> forall ls t s s', Inv c s -> least_inv c t s ->
  run_labels c s ls = Some s' -> least_inv c (t + ticks ls) s'.
Proof.
  intros Hwf. induction ls as [|l ls IH]; intros t s s' HI T E.
  - inversion E; subst. unfold ticks; cbn. rewrite Nat.add_0_r. exact T.
  - cbn in E. destruct (step c s l) as [s1|] eqn:E1; [|discriminate].
    specialize (IH _ _ _ (step_inv c Hwf s l s1 HI E1) (least_step c t s l s1 Hwf HI T E1) E).
    replace (t + ticks (l :: ls)) with (t + (if is_tick l then 1 else 0) + ticks ls); [exact IH|].
    unfold ticks. cbn. destruct (is_tick l); cbn; lia.
Qed.

(** An execution that finishes has been ticked twice more than it has nodes. *)
Theorem least_ticks : forall c z ls s er, wf_dag (c_dag c) -> run_labels c (init z) ls = Some s -> result s = RRecord er ->
  node_ids (c_dag c) <> [] ->
  List.length (node_ids (c_dag c)) + 2 <= ticks ls /\ (c_threads c = 0 -> ticks ls = List.length (node_ids (c_dag c)) + 2).
Proof.
  intros c z ls s er Hwf E Hr Hne.
  pose proof (least_run c Hwf ls 0 (init z) s (inv_init c z) (conj eq_refl eq_refl) E) as D. cbn [Nat.add] in D.
  destruct (on_tick_count c z s er Hwf (ex_intro _ ls E) Hr) as [G G0].
  assert (Ep : s_pc s = Finished) by (unfold result in Hr; destruct (s_pc s); try discriminate; reflexivity).
  unfold least_inv in D. rewrite Ep in D. specialize (D Hne). unfold trace in *. rewrite on_ticks_rev in *. split; [lia|]. intros H0. specialize (G0 H0). destruct D as [_ D]. specialize (D H0). lia.
Qed.

(** * Together *)
Theorem run_is_run : forall c period s t0 ts r s' fin, run_at c period s t0 ts r s' fin -> run_call c s r s'.
Proof. intros c p s t0 ts r s' fin H. eapply loop_is_run. exact H. Qed.

Theorem run_schedule : forall c period s t0 ts r s' fin i b e,
  run_at c period s t0 ts r s' fin -> nth_error ts i = Some (b, e) ->
  (t0 + Z.of_nat i * period <= b /\ b <= e <= fin /\ forall b' e', nth_error ts (S i) = Some (b', e') -> e <= b')%Z.
Proof. intros c p s t0 ts r s' fin i b e H E. exact (proj2 (loop_schedule _ _ _ _ _ _ _ _ _ H i b e E)). Qed.

Theorem run_rate : forall c period s t0 ts r s' fin d,
  (0 <= period)%Z -> run_at c period s t0 ts r s' fin -> begun_before (t0 + d) ts <> 0 ->
  ((Z.of_nat (begun_before (t0 + d) ts) - 1) * period < d)%Z.
Proof. intros c p s t0 ts r s' fin d. apply loop_rate. Qed.

(** The same calls with the same durations, each begun as early as the loop allows. *)
Lemma loop_earliest c p s now next ts r s' fin : run_loop c p s now next ts r s' fin -> forall now', (now' <= now)%Z ->
  exists ts' fin', run_loop c p s now' next ts' r s' fin' /\ on_time p now' next ts' /\
    Forall2 (fun x y => fst x <= fst y /\ snd x - fst x = snd y - fst y)%Z ts' ts /\ (fin' <= fin)%Z.
Proof.
  induction 1 as [s now next Hd|s now next ls1 s1 b l s2 ls2 s3 e ts r s4 fin Hd H1 E1 Hb1 Hb2 Hl E2 E3 He HR IH]; intros now' Hn.
  - exists [], now'. split; [apply LoopDone, Hd|]. split; [exact I|]. split; [constructor|exact Hn].
  - destruct (IH (Z.max now' next + (e - b))%Z) as (ts' & fin' & A & B & C & D); [lia|].
    exists ((Z.max now' next, Z.max now' next + (e - b))%Z :: ts'), fin'. split; [|split; [|split; [|exact D]]].
    + eapply LoopTick; [exact Hd|exact H1|exact E1|lia|lia|exact Hl|exact E2|exact E3|lia|exact A].
    + split; [reflexivity|exact B].
    + constructor; [cbn [fst snd]; lia|exact C].
Qed.

Theorem run_punctual : forall c period s t0 ts r s' fin,
  run_at c period s t0 ts r s' fin ->
  (on_time period t0 t0 ts -> ticks_within period ts ->
   forall i b e, nth_error ts i = Some (b, e) -> (b = t0 + Z.of_nat i * period)%Z) /\
  (exists ts' fin', run_at c period s t0 ts' r s' fin' /\ on_time period t0 t0 ts' /\
    Forall2 (fun x y => fst x <= fst y /\ snd x - fst x = snd y - fst y)%Z ts' ts /\ (fin' <= fin)%Z).
Proof.
  intros c p s t0 ts r s' fin H. split.
  - intros O W i b e E. eapply on_time_exact; [exact O|exact W|lia|exact E].
  - apply (loop_earliest _ _ _ _ _ _ _ _ _ H). lia.
Qed.

Theorem run_least : forall c period z t0 ts er s' fin,
  wf_dag (c_dag c) -> (0 <= period)%Z -> run_at c period (init z) t0 ts (RRecord er) s' fin -> node_ids (c_dag c) <> [] ->
  List.length (node_ids (c_dag c)) + 2 <= List.length ts /\
  (c_threads c = 0 -> List.length ts = List.length (node_ids (c_dag c)) + 2) /\
  (t0 + (Z.of_nat (List.length (node_ids (c_dag c))) + 1) * period <= fin)%Z.
Proof.
  intros c p z t0 ts er s' fin Hwf Hp H Hne. destruct (loop_labels _ _ _ _ _ _ _ _ _ H) as (ls & A & B & _ & D & F).
  destruct F as [F|F]; [destruct (F er); reflexivity|].
  destruct (least_ticks c z ls s' er Hwf A (eq_sym B) Hne) as [L L0]. split; [lia|].
  split; [intros H0; specialize (L0 H0); lia|].
  assert (G : exists b e, nth_error ts (List.length (node_ids (c_dag c)) + 1) = Some (b, e)).
  { destruct (nth_error ts (List.length (node_ids (c_dag c)) + 1)) as [[b e]|] eqn:En; [eauto|]. apply nth_error_None in En. lia. }
  destruct G as (b & e & En). destruct (run_schedule _ _ _ _ _ _ _ _ _ _ _ H En) as (X & Y & _). nia.
Qed.

Theorem run_most : forall c period z t0 ts er s' fin,
  wf_dag (c_dag c) -> run_at c period (init z) t0 ts (RRecord er) s' fin ->
  List.length ts <= (if List.length (node_ids (c_dag c)) =? 0 then 1 else List.length (node_ids (c_dag c)) + 2) + timeouts (trace s') /\
  (on_time period t0 t0 ts -> ticks_within period ts -> (fin <= t0 + Z.of_nat (List.length ts) * period)%Z).
Proof.
  intros c p z t0 ts er s' fin Hwf H. destruct (loop_labels _ _ _ _ _ _ _ _ _ H) as (ls & A & B & C & _ & F).
  destruct F as [F|F]; [destruct (F er); reflexivity|]. split.
  - rewrite F. eapply sharp_ticks; [exact Hwf|exact A|]. intros b Eb. unfold done in C. rewrite Eb in C. discriminate.
  - intros T W. eapply on_time_fin; [exact H|exact T|exact W|lia|]. intros ->. cbn in F.
    inversion H; subst.
Qed.

(** A call of run() in which every tick but the sleeps is given: [cs] are the labels of the
    ticks, [dur] says how long each one takes. *)
Fixpoint play (c : config) (p : Z) (dur : list label -> Z) (s : state) (now next : Z) (cs : list (list label))
  : option (list (Z * Z) * state * Z) :=
  match cs with
  | [] => if done s then Some ([], s, now) else None
  | ls :: r =>
      if done s then None else
      match step c s LTick with
      | None => None
      | Some s1 =>
          match tick_to c s1 ls with
          | None => None
          | Some s2 =>
              let b := Z.max now next in
              match play c p dur s2 (b + Z.max 0 (dur ls)) (next + p) r with
              | None => None
              | Some (ts, s3, fin) => Some ((b, b + Z.max 0 (dur ls))%Z :: ts, s3, fin)
              end
          end
      end
  end.

Lemma play_ok c p dur : forall cs s now next ts s' fin, play c p dur s now next cs = Some (ts, s', fin) ->
  run_loop c p s now next ts (result s') s' fin /\ on_time p now next ts.
Proof.
  induction cs as [|ls cs IH]; intros s now next ts s' fin E; cbn [play] in E.
  - destruct (done s) eqn:Ed; [|discriminate]. injection E as <- <- <-. split; [constructor; exact Ed|exact I].
  - destruct (done s) eqn:Ed; [discriminate|]. destruct (step c s LTick) as [s1|] eqn:E1; [|discriminate].
    destruct (tick_to c s1 ls) as [s2|] eqn:E2; [|discriminate]. cbv zeta in E.
    destruct (play c p dur s2 _ _ cs) as [[[ts0 s3] fin0]|] eqn:E3; [|discriminate]. injection E as <- <- <-.
    destruct (IH _ _ _ _ _ _ E3) as [A B]. split; [|split; [reflexivity|exact B]].
    eapply (LoopTick c p s now next [] s); [exact Ed|reflexivity|reflexivity|lia|lia|left; reflexivity|exact E1|exact E2|lia|exact A].
Qed.

(** The labels of a history before the first tick, and from tick to tick. *)
Fixpoint tick_chunks (ls : list label) : list (list label) :=
  match ls with
  | [] => [[]]
  | LTick :: r => [] :: tick_chunks r
  | l :: r => match tick_chunks r with [] => [[l]] | x :: xs => (l :: x) :: xs end
  end.
