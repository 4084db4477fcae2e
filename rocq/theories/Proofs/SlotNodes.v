(** The node given to after_run, for any number of threads (C21). *)
From Coq Require Import Lia String Permutation.
From Verif Require Import Model.Common Model.Records Model.Jobs Model.TaskSet Model.Dag
     Model.Sched Model.Exec Spec.Graph Spec.Trace
     Proofs.Sets Proofs.SchedFacts Proofs.InvalFacts Proofs.TraceFacts Proofs.ExecInv
     Proofs.ExecStep Proofs.ExecCtl Proofs.LogFacts Proofs.ExecProps Proofs.ExecProps2
     Proofs.StepCases Proofs.ExecProps3 Proofs.Ticks.
Open Scope nat_scope.
Open Scope list_scope.

Definition is_tick (e : event) : bool := match e with EOnTick _ => true | _ => false end.

(** An after_run before n's before_run with no on_tick between, or after it.  Logs are
    newest first. *)
Definition dist (n : nid) (log : list event) : Prop :=
  exists l2 e l1, log = l2 ++ e :: l1 /\ is_after e = true /\
    (before_l l1 n \/ exists a b er, l2 = a ++ EBeforeRun er n :: b /\ forallb (fun e => negb (is_tick e)) b = true).
Definition passd (log : list event) : Prop :=
  exists a e b, log = a ++ e :: b /\ is_after e = true /\ forallb (fun e => negb (is_tick e)) a = true.

Lemma dist_mono n log e : dist n log -> dist n (e :: log).
Proof.
  intros (l2 & a & l1 & -> & Ha & H). exists (e :: l2), a, l1. split; [reflexivity|]. split; [exact Ha|].
  destruct H as [H|(x & b & er & -> & Hb)]; [left; exact H|right]. exists (e :: x), b, er. auto.
Qed.
Lemma dist_app n l log : dist n log -> dist n (l ++ log).
Proof. induction l as [|e l IH]; intros H; [exact H|]. apply dist_mono, IH, H. Qed.
Lemma passd_mono e log : is_tick e = false -> passd log -> passd (e :: log).
Proof.
  intros He (a & x & b & -> & Hx & Ha). exists (e :: a), x, b. split; [reflexivity|]. split; [exact Hx|].
  cbn. rewrite He. exact Ha.
Qed.
Lemma passd_now e log : is_after e = true -> passd (e :: log).
Proof. intros H. exists [], e, log. auto. Qed.
Lemma dist_now n e log : is_after e = true -> before_l log n -> dist n (e :: log).
Proof. intros H B. exists [], e, log. auto. Qed.
Lemma dist_start n er log : passd log -> dist n (EBeforeRun er n :: log).
Proof.
  intros (a & x & b & -> & Hx & Ha). exists (EBeforeRun er n :: a), x, b. split; [reflexivity|].
  split; [exact Hx|]. right. exists [], a, er. auto.
Qed.
Lemma before_mono log e n : before_l log n -> before_l (e :: log) n.
Proof. intros [er H]. exists er. right. exact H. Qed.
Lemma before_now log er n : before_l (EBeforeRun er n :: log) n.
Proof. exists er. left. reflexivity. Qed.

(** What is known of a run coroutine in a slot whose node is [m]. *)
Definition slot_ok (log : list event) (m : nid) (k : coro) : Prop :=
  match co_st k with
  | CFresh => m = co_node k
  | CWait rec => r_node rec = co_node k /\ before_l log (co_node k) /\ before_l log m /\
                 (m = co_node k \/ dist (co_node k) log)
  end.
Lemma slot_ok_mono log e m k : slot_ok log m k -> slot_ok (e :: log) m k.
Proof.
  unfold slot_ok. destruct (co_st k); [auto|]. intros (H1 & H2 & H3 & H4).
  split; [exact H1|]. split; [apply before_mono, H2|]. split; [apply before_mono, H3|].
  destruct H4 as [H4|H4]; [left; exact H4|right; apply dist_mono, H4].
Qed.

(** Every call of after_run so far. *)
Definition calls_ok (log : list event) : Prop :=
  forall l2 er r x l1, log = l2 ++ EAfterRun er r x :: l1 ->
    before_l l1 x /\ (x = r_node r \/ dist (r_node r) l1).

Lemma calls_cons e log : is_after e = false -> calls_ok log -> calls_ok (e :: log).
Proof.
  intros He H [|e' l2] er r x l1 E; cbn in E; injection E as E1 E2.
  - subst e. discriminate He.
  - exact (H _ _ _ _ _ E2).
Qed.
Lemma calls_after er r x log : calls_ok log -> before_l log x -> x = r_node r \/ dist (r_node r) log ->
  calls_ok (EAfterRun er r x :: log).
Proof.
  intros H B D [|e' l2] er' r' x' l1 E; cbn in E.
  - injection E as -> -> -> ->. auto.
  - injection E as _ E2. exact (H _ _ _ _ _ E2).
Qed.
Lemma calls_tail l log : calls_ok (l ++ log) -> calls_ok log.
Proof. intros H l2 er r x l1 ->. apply (H (l ++ l2) er r x l1). rewrite app_assoc. reflexivity. Qed.
Lemma calls_none log : (forall e, In e log -> is_after e = false) -> calls_ok log.
Proof.
  intros H l2 er r x l1 ->. specialize (H (EAfterRun er r x)). rewrite in_app_iff in H.
  specialize (H (or_intror (or_introl eq_refl))). discriminate H.
Qed.

Lemma Forall2_impl {A B} (P Q : A -> B -> Prop) l l' : (forall a b, P a b -> Q a b) -> Forall2 P l l' -> Forall2 Q l l'.
Proof. intros H F. induction F; constructor; auto. Qed.

Definition waits (log : list event) (k : coro) : Prop :=
  exists rec, co_st k = CWait rec /\ r_node rec = co_node k /\ before_l log (co_node k).

Definition slots_pc (s : state) : Prop :=
  match s_pc s with
  | Suspended _ => Forall (fun sl => slot_ok (s_log s) (sl_node sl) (sl_coro sl)) (s_coros s)
  | Clean _ kept rest =>
      Forall (fun sl => slot_ok (s_log s) (sl_node sl) (sl_coro sl)) rest /\
      Forall (waits (s_log s)) kept /\
      exists pre, map sl_node (s_coros s) = pre ++ map sl_node rest /\
        Forall (before_l (s_log s)) pre /\
        (Forall2 (fun m k => m = co_node k \/ dist (co_node k) (s_log s)) pre kept \/
         passd (s_log s) /\ List.length kept <= List.length pre /\
         forall k, In k (kept ++ map sl_coro rest) -> co_st k <> CFresh -> dist (co_node k) (s_log s))
  | _ => True
  end.
Definition slots_inv (s : state) : Prop := calls_ok (s_log s) /\ slots_pc s.

Lemma waits_mono log e k : waits log k -> waits (e :: log) k.
Proof. intros (rec & H1 & H2 & H3). exists rec. split; [exact H1|]. split; [exact H2|]. apply before_mono, H3. Qed.

(** A job thread or the clock did something: only an event that is neither an after_run nor
    an on_tick was added. *)
Lemma slots_pc_emit s s' e : is_tick e = false ->
  s_pc s' = s_pc s -> s_coros s' = s_coros s -> s_log s' = e :: s_log s -> slots_pc s -> slots_pc s'.
Proof.
  intros He E1 E2 E3 H. unfold slots_pc in *. rewrite E1, E2, E3. destruct (s_pc s); try exact I.
  - eapply Forall_impl; [|exact H]. intros sl. apply slot_ok_mono.
  - destruct H as (H1 & H2 & pre & H3 & H4 & H5). split; [eapply Forall_impl; [|exact H1]; intros sl; apply slot_ok_mono|].
    split; [eapply Forall_impl; [|exact H2]; intros k; apply waits_mono|].
    exists pre. split; [exact H3|]. split; [eapply Forall_impl; [|exact H4]; intros m; apply before_mono|].
    destruct H5 as [H5|(H5 & H6 & H7)].
    + left. eapply Forall2_impl; [|exact H5]. cbn. intros m k [H|H]; [left; exact H|right; apply dist_mono, H].
    + right. split; [apply passd_mono; assumption|]. split; [exact H6|]. intros k Hk Hf. apply dist_mono, H7; assumption.
Qed.

Lemma compact_slots log : forall pre kept,
  Forall (waits log) kept -> Forall (before_l log) pre -> List.length kept <= List.length pre ->
  (Forall2 (fun m k => m = co_node k \/ dist (co_node k) log) pre kept \/
   forall k, In k kept -> co_st k <> CFresh -> dist (co_node k) log) ->
  Forall (fun sl => slot_ok log (sl_node sl) (sl_coro sl)) (map (fun p => Slot (fst p) (snd p)) (combine pre kept)).
Proof.
  induction pre as [|m pre IH]; intros [|k kept] W B L D; cbn [combine map]; try constructor.
  - inversion W as [|? ? (rec & W1 & W2 & W3) W']; subst. inversion B as [|? ? B1 B']; subst.
    cbn [sl_node sl_coro fst snd]. unfold slot_ok. rewrite W1. split; [exact W2|]. split; [exact W3|].
    split; [exact B1|]. destruct D as [D|D].
    + inversion D; subst. assumption.
    + right. apply D; [left; reflexivity|congruence].
  - inversion W; subst. inversion B; subst. apply IH; try assumption; [cbn in L; lia|].
    destruct D as [D|D]; [left; inversion D; assumption|right; intros k' Hk'; apply D; right; exact Hk'].
Qed.

Lemma no_after_emits s es : (forall e, In e es -> is_after e = false) ->
  (forall e, In e (s_log s) -> is_after e = false) -> forall e, In e (s_log (emits s es)) -> is_after e = false.
Proof.
  revert s. induction es as [|x es IH]; intros s H1 H2; [exact H2|]. cbn [emits fold_left].
  apply IH; [intros e He; apply H1; right; exact He|]. cbn. intros e [<-|He]; [apply H1; left; reflexivity|apply H2, He].
Qed.
Lemma no_after_top s : (forall e, In e (s_log s) -> is_after e = false) ->
  forall e, In e (s_log (main_top s)) -> is_after e = false.
Proof.
  intros H e. unfold main_top, drain_top. destruct (s_todo s); [destruct (s_coros s)|]; cbn; try apply H;
    intros [<-|He]; [reflexivity|apply H, He|reflexivity|apply H, He].
Qed.
Lemma no_after_start c s : s_log s = [] -> forall e, In e (s_log (start c s)) -> is_after e = false.
Proof.
  intros E0. unfold start. cbv zeta.
  set (s0 := set_erec _ _).
  assert (H0 : forall e, In e (s_log s0) -> is_after e = false).
  { unfold s0. intros e He. change (In e (s_log (emits (set_todo s (fold_left (fun l n => set_insert n l) (node_ids (c_dag c)) [])) (map EEnque (node_ids (c_dag c)))))) in He.
    revert e He. apply no_after_emits; [|cbn; rewrite E0; intros e []].
    intros e He. apply in_map_iff in He as (n & <- & _). reflexivity. }
  assert (Hc : forall s cs, (forall e, In e (s_log s) -> is_after e = false) ->
     forall e, In e (s_log (emits s (map ECycle cs))) -> is_after e = false).
  { intros s1 cs H1. apply no_after_emits; [|exact H1]. intros e He. apply in_map_iff in He as (n & <- & _). reflexivity. }
  assert (Hi : forall s ev, (forall e, In e (s_log s) -> is_after e = false) ->
     forall e, In e (s_log (emits s (map inval_to_event ev))) -> is_after e = false).
  { intros s1 ev H1. apply no_after_emits; [|exact H1]. intros e He. apply in_map_iff in He as (i & <- & _). destruct i; reflexivity. }
  destruct (has_cycle _ _ _) as [[[|] cyc]|]; [| |exact H0].
  - apply (Hc s0 cyc H0).
  - destruct (inval_pass _ _ _ _ _ _) as [ns prop ev|n ev|n ev].
    + destruct (prop_loop _ _ _ _ _ _) as [ns' ev'|p|]; [|exact (Hc s0 cyc H0)|exact (Hc s0 cyc H0)].
      apply no_after_top. exact (Hi _ ev' (Hc s0 cyc H0)).
    + exact (Hi _ ev (Hc s0 cyc H0)).
    + exact (Hi _ ev (Hc s0 cyc H0)).
Qed.

Lemma slots_top s s0 : s_log s0 = s_log s -> s_coros s0 = s_coros s -> calls_ok (s_log s) ->
  Forall (fun sl => slot_ok (s_log s) (sl_node sl) (sl_coro sl)) (s_coros s) ->
  slots_inv (main_top s0) /\ slots_inv (drain_top s0).
Proof.
  intros El Ec Hc Hs.
  assert (Hd : slots_inv (drain_top s0)).
  { unfold drain_top. rewrite Ec. destruct (s_coros s) as [|sl cs] eqn:Es.
    - split; [cbn; rewrite El; apply calls_cons; [reflexivity|exact Hc]|exact I].
    - split; [cbn; rewrite El; exact Hc|]. unfold slots_pc. cbn [s_pc set_pc s_log s_coros]. rewrite El, Ec.
      split; [exact Hs|]. split; [constructor|]. exists []. split; [reflexivity|]. split; [constructor|]. left. constructor. }
  split; [|exact Hd]. unfold main_top. destruct (s_todo s0); [exact Hd|].
  split; [cbn; rewrite El; apply calls_cons; [reflexivity|exact Hc]|]. unfold slots_pc. cbn [s_pc set_pc emit s_log s_coros].
  rewrite El, Ec. split; [eapply Forall_impl; [|exact Hs]; intros sl; apply slot_ok_mono|].
  split; [constructor|]. exists []. split; [reflexivity|]. split; [constructor|]. left. constructor.
Qed.

(** The coroutine of the first slot of [rest] returns its record. *)
Lemma slots_complete s ph kept sl rest n rec e1 s' :
  s_pc s = Clean ph kept (sl :: rest) -> slots_inv s ->
  co_node (sl_coro sl) = n -> r_node rec = n -> is_after e1 = false -> is_tick e1 = false ->
  before_l (e1 :: s_log s) n ->
  s_log s' = EAfterRun (s_erec s) rec (sl_node sl) :: e1 :: s_log s ->
  s_pc s' = Clean ph kept rest -> s_coros s' = s_coros s -> slots_inv s'.
Proof.
  intros Epc [Hc Hp] En Er Ha Ht Hb El Ep Ec. unfold slots_pc in Hp. rewrite Epc in Hp.
  destruct Hp as (H1 & H2 & pre & H3 & H4 & H5). inversion H1 as [|? ? Hsl Hrest]; subst x l.
  assert (Hbs : before_l (e1 :: s_log s) (sl_node sl)).
  { unfold slot_ok in Hsl. destruct (co_st (sl_coro sl)); [rewrite Hsl, En; exact Hb|].
    apply before_mono, Hsl. }
  split.
  - rewrite El. apply calls_after; [apply calls_cons; assumption|exact Hbs|]. rewrite Er.
    unfold slot_ok in Hsl. destruct (co_st (sl_coro sl)); [left; congruence|]. rewrite <- En.
    destruct Hsl as (_ & _ & _ & [D|D]); [left; exact D|right; apply dist_mono, D].
  - unfold slots_pc. rewrite Ep, Ec, El. set (log' := EAfterRun _ _ _ :: _).
    split; [eapply Forall_impl; [|exact Hrest]; intros sl'; intros H; apply slot_ok_mono, slot_ok_mono, H|].
    split; [eapply Forall_impl; [|exact H2]; intros k H; apply waits_mono, waits_mono, H|].
    exists (pre ++ [sl_node sl]). split; [rewrite H3; cbn [map]; rewrite <- app_assoc; reflexivity|].
    split. { apply Forall_app. split; [eapply Forall_impl; [|exact H4]; intros m H; apply before_mono, before_mono, H|].
             constructor; [apply before_mono, Hbs|constructor]. }
    right. split; [apply passd_now; reflexivity|]. split.
    + rewrite app_length. destruct H5 as [H5|(_ & H5 & _)]; [|lia].
      assert (E : forall l l', Forall2 (fun m k => m = co_node k \/ dist (co_node k) (s_log s)) l l' -> List.length l = List.length l')
        by (induction 1; cbn; congruence).
      rewrite (E _ _ H5). lia.
    + intros k Hk Hf. apply dist_now; [reflexivity|]. apply in_app_or in Hk. destruct Hk as [Hk|Hk].
      * rewrite Forall_forall in H2. destruct (H2 k Hk) as (rc & _ & _ & H). apply before_mono, H.
      * apply in_map_iff in Hk as (sl' & <- & Hk). rewrite Forall_forall in Hrest. specialize (Hrest _ Hk).
        unfold slot_ok in Hrest. destruct (co_st (sl_coro sl')); [congruence|]. apply before_mono, Hrest.
Qed.

Lemma slots_step0 c s l s' : wf_dag (c_dag c) -> Inv c s -> slots_inv s -> step c s l = Some s' ->
  (forall k, l <> LVisThrow k) -> slots_inv s'.
Proof.
  intros Hwf HI HS E Hnv. destruct HS as [Hc Hp].
  destruct l; cbn [step] in E.
  - unfold tick in E. destruct (s_pc s) as [|ph| | | | | | |] eqn:Epc; try discriminate.
    + inversion E; subst s'. pose proof (i_pc _ _ HI) as P. unfold pc_inv in P. rewrite Epc in P.
      destruct P as [_ [_ [_ [_ [_ [_ El0]]]]]].
      assert (Hcs : calls_ok (s_log (start c s))) by (apply calls_none, no_after_start, El0).
      split; [exact Hcs|].
      destruct (start_spec c Hwf s HI Epc) as [R _].
      inversion R as [? ? cyc L1 L2 L3|? ? m pre post L2 L1 L3 L4 L5 L6 L7|? ? m pre post L2 L1 L3 L4 L5 L6 L7
                 |? ? s1 evd todo Es T1 El Ep Et Hso Ec Eck]; subst.
      * unfold slots_pc. rewrite L2. exact I.
      * unfold slots_pc. rewrite L2. exact I.
      * unfold slots_pc. rewrite L2. exact I.
      * rewrite Es. apply (slots_top s1 s1); try reflexivity; [|rewrite Ec; constructor].
        rewrite Es in Hcs. unfold main_top, drain_top in Hcs.
        destruct (s_todo s1); [rewrite Ec in Hcs|]; exact (calls_tail [_] _ Hcs).
    + unfold slots_pc in Hp. rewrite Epc in Hp.
      destruct ph; inversion E; subst s'; apply (slots_top s s); auto.
    + inversion E; subst. split; [exact Hc|exact I].
    + inversion E; subst. split; [exact Hc|exact I].
  - destruct (s_pc s); try discriminate; inversion E; subst; (split; [exact Hc|exact I]).
  - destruct (ctl_cases c s s' HI E) as
      [ph kept sl rest n s' Epc Esl _ Es|ph kept sl rest n s' Epc Esl _ _ Es
      |ph kept sl rest n s1 s' Epc Esl _ _ Es1 Es|ph kept sl rest n rec s' Epc Esl _ Es
      |ph kept sl rest n rec s' Epc Esl _ Es|ph kept sl rest n rec o s1 s2 s' Epc Esl _ Es1 Es2 Es
      |kept s1 s' Epc Es1 Es|kept s1 s' Epc Es1 Es|e s' Epc Es|e sl rest s' Epc _ Es|s' Epc Es|sl rest s' Epc _ Es].
    + eapply (slots_complete s ph kept sl rest n _ (EBeforeRun (s_erec s) n)); try exact Epc; try (subst s'; reflexivity);
        [split; assumption|rewrite Esl; reflexivity|reflexivity|apply before_now].
    + eapply (slots_complete s ph kept sl rest n _ (EBeforeRun (s_erec s) n)); try exact Epc; try (subst s'; reflexivity);
        [split; assumption|rewrite Esl; reflexivity|reflexivity|apply before_now].
    + assert (El : s_log s' = ELaunch n :: EBeforeRun (s_erec s) n :: s_log s) by (subst s' s1; reflexivity).
      unfold slots_pc in Hp. rewrite Epc in Hp. destruct Hp as (H1 & H2 & pre & H3 & H4 & H5).
      inversion H1 as [|? ? Hsl Hrest]; subst x l. unfold slot_ok in Hsl. rewrite Esl in Hsl. cbn in Hsl.
      split; [rewrite El; do 2 (apply calls_cons; [reflexivity|]); exact Hc|].
      unfold slots_pc. rewrite El.
      assert (Ep : s_pc s' = Clean ph kept (Slot (sl_node sl) (Coro n (CWait (new_record c n (s_clock s)))) :: rest))
        by (subst s' s1; reflexivity).
      assert (Ec : s_coros s' = s_coros s) by (subst s' s1; reflexivity). rewrite Ep, Ec.
      set (log' := ELaunch n :: EBeforeRun (s_erec s) n :: s_log s).
      assert (Hbn : before_l log' n) by (apply before_mono, before_now).
      split.
      { constructor.
        - unfold slot_ok. cbn. split; [reflexivity|]. split; [exact Hbn|]. rewrite Hsl. split; [exact Hbn|]. left. reflexivity.
        - eapply Forall_impl; [|exact Hrest]. intros sl' H. apply slot_ok_mono, slot_ok_mono, H. }
      split; [eapply Forall_impl; [|exact H2]; intros k H; apply waits_mono, waits_mono, H|].
      exists pre. split; [exact H3|].
      split; [eapply Forall_impl; [|exact H4]; intros m H; apply before_mono, before_mono, H|].
      destruct H5 as [H5|(H5 & H6 & H7)].
      * left. eapply Forall2_impl; [|exact H5]. cbn. intros m k [H|H]; [left; exact H|right; apply dist_mono, dist_mono, H].
      * right. split; [apply passd_mono; [reflexivity|]; apply passd_mono; [reflexivity|exact H5]|]. split; [exact H6|].
        intros k Hk Hf. cbn [map sl_coro] in Hk. apply in_app_or in Hk.
        destruct Hk as [Hk|[<-|Hk]].
        -- apply dist_mono, dist_mono, H7; [apply in_or_app; left; exact Hk|exact Hf].
        -- cbn. apply dist_mono, dist_start, H5.
        -- apply dist_mono, dist_mono, H7; [apply in_or_app; right; right; exact Hk|exact Hf].
    + split; [subst s'; cbn; apply calls_cons; [reflexivity|exact Hc]|].
      eapply (slots_pc_emit s s' (EBegin n)); [reflexivity|subst s'; reflexivity..|exact Hp].
    + unfold slots_pc in Hp. rewrite Epc in Hp. destruct Hp as (H1 & H2 & pre & H3 & H4 & H5).
      inversion H1 as [|? ? Hsl Hrest]; subst x l. unfold slot_ok in Hsl. rewrite Esl in Hsl. cbn in Hsl.
      destruct Hsl as (S1 & S2 & S3 & S4).
      split; [subst s'; cbn; apply calls_cons; [reflexivity|exact Hc]|].
      unfold slots_pc. subst s'. cbn [s_pc set_pc s_log s_coros emit].
      split; [eapply Forall_impl; [|exact Hrest]; intros sl' H; apply slot_ok_mono, H|].
      split. { apply Forall_app. split; [eapply Forall_impl; [|exact H2]; intros k H; apply waits_mono, H|].
               constructor; [|constructor]. exists rec. cbn. split; [reflexivity|]. split; [exact S1|]. apply before_mono, S2. }
      exists (pre ++ [sl_node sl]). split; [rewrite H3; cbn [map]; rewrite <- app_assoc; reflexivity|].
      split. { apply Forall_app. split; [eapply Forall_impl; [|exact H4]; intros m H; apply before_mono, H|].
               constructor; [apply before_mono, S3|constructor]. }
      destruct H5 as [H5|(H5 & H6 & H7)].
      * left. apply Forall2_app; [eapply Forall2_impl; [|exact H5]; cbn; intros m k [H|H]; [left; exact H|right; apply dist_mono, H]|].
        constructor; [|constructor]. cbn. destruct S4 as [H|H]; [left; exact H|right; apply dist_mono, H].
      * right. split; [apply passd_mono; [reflexivity|exact H5]|]. split; [rewrite !app_length; cbn; lia|].
        intros k Hk Hf. apply dist_mono, H7; [|exact Hf]. rewrite <- app_assoc in Hk. cbn [map]. rewrite Esl. exact Hk.
    + assert (Er : r_node rec = n /\ before_l (s_log s) n).
      { unfold slots_pc in Hp. rewrite Epc in Hp. destruct Hp as (H1 & _). inversion H1 as [|? ? Hsl _]; subst x l.
        unfold slot_ok in Hsl. rewrite Esl in Hsl. cbn in Hsl. split; apply Hsl. }
      eapply (slots_complete s ph kept sl rest n (finish_record rec (run_lambda o) (s_clock s)) (ERunLog n (rr_log (run_lambda o)))); try exact Epc.
      * split; assumption.
      * rewrite Esl. reflexivity.
      * exact (proj1 Er).
      * reflexivity.
      * reflexivity.
      * apply before_mono, Er.
      * subst s' s2 s1. destruct (negb _); reflexivity.
      * subst s'. reflexivity.
      * subst s' s2 s1. destruct (negb _); reflexivity.
    + unfold slots_pc in Hp. rewrite Epc in Hp. destruct Hp as (_ & H2 & pre & H3 & H4 & H5).
      cbn [map] in H3, H5. rewrite app_nil_r in H3, H5.
      assert (Hs : Forall (fun sl => slot_ok (s_log s) (sl_node sl) (sl_coro sl)) (compact (s_coros s) kept)).
      { unfold compact. rewrite H3. apply compact_slots; [exact H2|exact H4| |].
        - destruct H5 as [H5|(_ & H5 & _)]; [|exact H5]. assert (E0 : List.length pre = List.length kept).
          { clear -H5. induction H5; cbn; congruence. } lia.
        - destruct H5 as [H5|(_ & _ & H5)]; [left; exact H5|right; exact H5]. }
      subst s1. destruct (dispatch_cases c s kept s' Hwf HI Epc Es) as [s' X1 X2 X3 X4|m0 s' X1 X2 X3 X4|s' X1 X2 X3];
        clear Es; subst s'; (split; [exact Hc|]); unfold slots_pc; cbn [s_pc set_pc s_log s_coros set_coros set_todo].
      * exact Hs.
      * apply Forall_app. split; [exact Hs|]. constructor; [reflexivity|constructor].
      * exact Hs.
    + unfold slots_pc in Hp. rewrite Epc in Hp. destruct Hp as (_ & H2 & pre & H3 & H4 & H5).
      cbn [map] in H3, H5. rewrite app_nil_r in H3, H5.
      subst s' s1. split; [exact Hc|]. unfold slots_pc; cbn [s_pc set_pc s_log s_coros set_coros].
      unfold compact. rewrite H3. apply compact_slots; [exact H2|exact H4| |].
      * destruct H5 as [H5|(_ & H5 & _)]; [|exact H5]. assert (E0 : List.length pre = List.length kept).
        { clear -H5. induction H5; cbn; congruence. } lia.
      * destruct H5 as [H5|(_ & _ & H5)]; [left; exact H5|right; exact H5].
    + subst s'. split; [exact Hc|exact I].
    + subst s'. split; [exact Hc|exact I].
    + subst s'. split; [cbn; apply calls_cons; [reflexivity|exact Hc]|exact I].
    + subst s'. split; [exact Hc|exact I].
  - destruct (launchfail_cases c s s' HI E) as (ph & kept & sl & rest & n0 & Epc & _ & _ & Ep & El & _).
    split; [rewrite El; apply calls_cons; [reflexivity|exact Hc]|]. unfold slots_pc. rewrite Ep. exact I.
  - destruct (Hnv k eq_refl).
  - destruct (s_fut s n) eqn:Ef; try discriminate. inversion E; subst.
    split; [cbn; apply calls_cons; [reflexivity|exact Hc]|].
    eapply (slots_pc_emit s); [|reflexivity|reflexivity|reflexivity|exact Hp]. reflexivity.
  - destruct (s_fut s n) eqn:Ef; try discriminate. inversion E; subst.
    split; [cbn; apply calls_cons; [reflexivity|exact Hc]|].
    eapply (slots_pc_emit s); [|reflexivity|reflexivity|reflexivity|exact Hp]. reflexivity.
  - inversion E; subst. split; [exact Hc|]. exact Hp.
Qed.

Lemma slots_step c s l s' : wf_dag (c_dag c) -> Inv c s -> slots_inv s -> step c s l = Some s' -> slots_inv s'.
Proof.
  intros Hwf HI HS E.
  assert (Hl : (exists k, l = LVisThrow k) \/ forall k, l <> LVisThrow k) by (destruct l; eauto; right; discriminate).
  destruct Hl as [[k ->]|Hl]; [|eapply slots_step0; eassumption]. cbn [step] in E.
  destruct (match s_pc s with Created | Suspended _ => tick c s | Clean _ _ _ => ctl c s true | _ => None end) as [s1|] eqn:E1; [|discriminate].
  assert (HL : exists l0, step c s l0 = Some s1 /\ (forall k, l0 <> LVisThrow k)).
  { destruct (s_pc s); try discriminate; [exists LTick|exists LTick|exists LCtl]; repeat split; (exact E1 || discriminate). }
  destruct HL as [l0 [El0 Hnv]].
  destruct (slots_step0 c s l0 s1 Hwf HI HS El0 Hnv) as [S1 _].
  destruct (step_log c s l0 s1 Hwf HI El0) as [new En].
  destruct (visthrow_cases s s1 k s' E) as [es [rest [Es [es2 Ees]]]].
  rewrite En, app_length, Nat.add_sub, firstn_app, Nat.sub_diag, firstn_O, app_nil_r, firstn_all in Ees.
  assert (El1 : s_log s1 = rev (es ++ es2) ++ s_log s) by (rewrite <- Ees, rev_involutive; exact En).
  assert (El : s_log s' = rev es ++ s_log s) by (rewrite Es, emits_eq; destruct s; reflexivity).
  split.
  - rewrite El. rewrite El1, rev_app_distr, <- app_assoc in S1. exact (calls_tail _ _ S1).
  - rewrite Es. exact I.
Qed.

Lemma slots_run c z s : wf_dag (c_dag c) -> reachable c z s -> slots_inv s.
Proof.
  intros Hwf [ls E].
  assert (G : forall ls s0 s, Inv c s0 -> slots_inv s0 -> run_labels c s0 ls = Some s -> slots_inv s).
  { clear ls s E. induction ls as [|l ls IH]; intros s0 s HI HS E; cbn in E; [inversion E; subst; exact HS|].
    destruct (step c s0 l) as [s1|] eqn:E1; [|discriminate].
    apply (IH s1 s); [eapply step_inv; eassumption|eapply slots_step; eassumption|exact E]. }
  apply (G ls (init z) s (inv_init c z)); [|exact E]. split; [|exact I]. intros [|? l2] er r x l1 H; discriminate.
Qed.

(** ** On traces *)
Lemma app_cases {A} : forall (l1 l2 m1 m2 : list A) a b, l1 ++ a :: l2 = m1 ++ b :: m2 ->
  (l1 = m1 /\ a = b /\ l2 = m2) \/ (exists k, m1 = l1 ++ a :: k /\ l2 = k ++ b :: m2) \/
  (exists k, l1 = m1 ++ b :: k /\ m2 = k ++ a :: l2).
Proof.
  induction l1 as [|u l1 IH]; intros l2 [|v m1] m2 a b E; cbn in E; inversion E; subst.
  - left. auto.
  - right. left. exists m1. auto.
  - right. right. exists l1. auto.
  - destruct (IH _ _ _ _ _ H1) as [(-> & -> & ->)|[(k & -> & ->)|(k & -> & ->)]].
    + left. auto.
    + right. left. exists k. auto.
    + right. right. exists k. auto.
Qed.

Lemma before_once c z s (Hwf : wf_dag (c_dag c)) (HR : reachable c z s) l1 l2 er n : trace s = l1 ++ EBeforeRun er n :: l2 ->
  (forall er', ~ In (EBeforeRun er' n) l1) /\ forall er', ~ In (EBeforeRun er' n) l2.
Proof.
  intros E. split.
  - intros er' H. destruct (trace_at c z s Hwf HR _ _ _ E) as [[He _] _]. cbn [ev_cond] in He.
    destruct He as (_ & _ & _ & He & _). apply He. exists er'. apply -> in_rev. exact H.
  - intros er' H. apply in_split in H as (a & b & ->).
    assert (E' : trace s = (l1 ++ EBeforeRun er n :: a) ++ EBeforeRun er' n :: b) by (rewrite E, <- app_assoc; reflexivity).
    destruct (trace_at c z s Hwf HR _ _ _ E') as [[He _] _]. cbn [ev_cond] in He.
    destruct He as (_ & _ & _ & He & _). apply He. exists er. apply -> in_rev. apply in_or_app. right. left. reflexivity.
Qed.

Lemma after_run_started : forall c z s pre er r x post,
  wf_dag (c_dag c) -> reachable c z s -> trace s = pre ++ EAfterRun er r x :: post ->
  exists er', In (EBeforeRun er' x) pre.
Proof.
  intros c z s pre er r x post Hwf HR E. destruct (slots_run c z s Hwf HR) as [Hc _].
  assert (El : s_log s = rev post ++ EAfterRun er r x :: rev pre).
  { rewrite <- (rev_involutive (s_log s)). change (rev (s_log s)) with (trace s). rewrite E, rev_app_distr. cbn.
    rewrite <- app_assoc. reflexivity. }
  destruct (Hc _ _ _ _ _ El) as [[er' H] _]. exists er'. apply in_rev. exact H.
Qed.

Lemma after_run_alone : forall c z s l1 er1 l2 er2 l3 er3 r x l4,
  wf_dag (c_dag c) -> reachable c z s ->
  trace s = l1 ++ EOnTick er1 :: l2 ++ EBeforeRun er2 (r_node r) :: l3 ++ EAfterRun er3 r x :: l4 ->
  (forall er' r' x', ~ In (EAfterRun er' r' x') (l2 ++ l3)) -> x = r_node r.
Proof.
  intros c z s l1 er1 l2 er2 l3 er3 r x l4 Hwf HR E Hno. destruct (slots_run c z s Hwf HR) as [Hc _].
  set (n := r_node r) in *.
  set (pre := l1 ++ EOnTick er1 :: l2 ++ EBeforeRun er2 n :: l3).
  assert (Ep : trace s = pre ++ EAfterRun er3 r x :: l4).
  { rewrite E. unfold pre. repeat (rewrite <- app_assoc; cbn [app]). reflexivity. }
  assert (El : s_log s = rev l4 ++ EAfterRun er3 r x :: rev pre).
  { rewrite <- (rev_involutive (s_log s)). change (rev (s_log s)) with (trace s). rewrite Ep, rev_app_distr. cbn.
    rewrite <- app_assoc. reflexivity. }
  destruct (Hc _ _ _ _ _ El) as [_ [H|H]]; [exact H|exfalso].
  destruct H as (k2 & e & k1 & Ek & He & H).
  assert (Epre : pre = rev k1 ++ e :: rev k2).
  { rewrite <- (rev_involutive pre), Ek, rev_app_distr. cbn. rewrite <- app_assoc. reflexivity. }
  assert (Eb : trace s = (l1 ++ EOnTick er1 :: l2) ++ EBeforeRun er2 n :: (l3 ++ EAfterRun er3 r x :: l4)).
  { rewrite E. rewrite <- app_assoc. reflexivity. }
  destruct (before_once c z s Hwf HR _ _ _ _ Eb) as [U1 U2].
  assert (Hne : forall l, (forall er' r' x', ~ In (EAfterRun er' r' x') l) -> ~ In e l).
  { intros l Hl Hin. destruct e; try discriminate He. exact (Hl _ _ _ Hin). }
  assert (Hno2 : ~ In e l2) by (apply Hne; intros er' r' x' Hi; apply (Hno er' r' x'), in_or_app; left; exact Hi).
  assert (Hno3 : ~ In e l3) by (apply Hne; intros er' r' x' Hi; apply (Hno er' r' x'), in_or_app; right; exact Hi).
  assert (Epre2 : (l1 ++ EOnTick er1 :: l2) ++ EBeforeRun er2 n :: l3 = rev k1 ++ e :: rev k2).
  { rewrite <- Epre. unfold pre. rewrite <- app_assoc. reflexivity. }
  destruct (app_cases _ _ _ _ _ _ Epre2) as [(_ & Ee & _)|[(k & Ek1 & Ek2)|(k & Ek1 & Ek2)]].
  - subst e. discriminate He.
  - (* the after_run is after before_run *)
    apply Hno3. rewrite Ek2. apply in_or_app. right. left. reflexivity.
  - (* before before_run: then before on_tick too *)
    destruct H as [[er' H]|(a & b & er' & -> & Hb)].
    + apply in_rev in H. apply (U1 er'). rewrite Ek1. apply in_or_app. left. exact H.
    + rewrite rev_app_distr in Ek2. cbn in Ek2. rewrite <- app_assoc in Ek2. cbn in Ek2.
      assert (Hbt : ~ In (EOnTick er1) (rev b)).
      { intros Hi. apply in_rev in Hi. rewrite forallb_forall in Hb. specialize (Hb _ Hi). discriminate Hb. }
      assert (Ekb : rev b = k).
      { destruct (app_cases _ _ _ _ _ _ Ek2) as [(H & _)|[(j & Hj & _)|(j & _ & Hj)]]; [exact H| |]; exfalso.
        - apply (U1 er'). rewrite Ek1, Hj. apply in_or_app. right. right. apply in_or_app. right. left. reflexivity.
        - apply (U2 er'). rewrite Hj. apply in_or_app. left. apply in_or_app. right. left. reflexivity. }
      destruct (app_cases _ _ _ _ _ _ Ek1) as [(_ & Ee & _)|[(j & Ej & Ej2)|(j & Ej & Ej2)]].
      * subst e. discriminate He.
      * apply Hno2. rewrite Ej2. apply in_or_app. right. left. reflexivity.
      * apply Hbt. rewrite Ekb, Ej2. apply in_or_app. right. left. reflexivity.
Qed.

(** To find such a place in a trace. *)
Definition alone_at (tr : list event) (i k : nat) (n : nid) : bool :=
  match nth_error tr i, nth_error tr (S i), nth_error tr (S (S (k + i))) with
  | Some (EOnTick _), Some (EBeforeRun _ m), Some (EAfterRun _ r _) =>
      (m =? n) && (r_node r =? n) && forallb (fun e => negb (is_after e)) (firstn k (skipn (S (S i)) tr))
  | _, _, _ => false
  end.
Lemma skipn_skipn {A} : forall i j (l : list A), skipn i (skipn j l) = skipn (i + j) l.
Proof.
  intros i j. revert i. induction j as [|j IH]; intros i l; [rewrite Nat.add_0_r; reflexivity|].
  rewrite Nat.add_succ_r. destruct l as [|x l]; [cbn; apply skipn_nil|]. cbn [skipn]. apply IH.
Qed.
Lemma nth_skipn {A} : forall i (l : list A) e, nth_error l i = Some e -> skipn i l = e :: skipn (S i) l.
Proof.
  induction i as [|i IH]; intros [|x l] e H; cbn in H; try discriminate.
  - injection H as ->. reflexivity.
  - cbn [skipn]. rewrite (IH _ _ H). reflexivity.
Qed.
Lemma alone_shape tr i k n : alone_at tr i k n = true ->
  exists l1 er1 er2 l3 er3 r x l4,
    tr = l1 ++ EOnTick er1 :: [] ++ EBeforeRun er2 (r_node r) :: l3 ++ EAfterRun er3 r x :: l4 /\
    r_node r = n /\ (forall er' r' x', ~ In (EAfterRun er' r' x') ([] ++ l3)).
Proof.
  unfold alone_at. intros H.
  destruct (nth_error tr i) as [[]|] eqn:E1; try discriminate.
  destruct (nth_error tr (S i)) as [[]|] eqn:E2; try discriminate.
  destruct (nth_error tr (S (S (k + i)))) as [[]|] eqn:E3; try discriminate.
  apply andb_prop in H as [H H3]. apply andb_prop in H as [H1 H2].
  apply Nat.eqb_eq in H1, H2. subst n0.
  exists (firstn i tr), er, er0, (firstn k (skipn (S (S i)) tr)), er1, r, n1, (skipn (S (S (S (k + i)))) tr).
  split; [|split; [exact H2|]].
  - rewrite <- (firstn_skipn i tr) at 1. f_equal. rewrite (nth_skipn _ _ _ E1), (nth_skipn _ _ _ E2), H2. cbn [app].
    do 2 f_equal. rewrite <- (firstn_skipn k (skipn (S (S i)) tr)) at 1. f_equal.
    rewrite <- (nth_skipn _ _ _ E3). rewrite skipn_skipn. f_equal. lia.
  - intros er' r' x' Hi. cbn [app] in Hi. rewrite forallb_forall in H3. specialize (H3 _ Hi). discriminate H3.
Qed.
