(** Which node after_run is given, exactly (C21). *)
From Coq Require Import Lia String Permutation.
From Verif Require Import Model.Common Model.Records Model.Jobs Model.TaskSet Model.Dag
     Model.Sched Model.Exec Spec.Graph Spec.Trace Spec.Parallel Spec.Places
     Proofs.Sets Proofs.SchedFacts Proofs.InvalFacts Proofs.TraceFacts Proofs.ExecInv
     Proofs.ExecStep Proofs.ExecCtl Proofs.LogFacts Proofs.ExecProps Proofs.ExecProps2
     Proofs.StepCases Proofs.ExecProps3 Proofs.Ticks Proofs.SlotNodes.
Open Scope nat_scope.
Open Scope list_scope.

(** [a] was begun when [b] was not.  Logs are newest first. *)
Definition ltl (log : list event) (a b : nid) : Prop :=
  exists l2 l1, log = l2 ++ l1 /\ before_l l1 a /\ ~ before_l l1 b.

Lemma before_app l log n : before_l log n -> before_l (l ++ log) n.
Proof. intros [er H]. exists er. apply in_or_app. right. exact H. Qed.
Lemma ltl_app l log a b : ltl log a b -> ltl (l ++ log) a b.
Proof. intros (l2 & l1 & -> & H). exists (l ++ l2), l1. rewrite app_assoc. auto. Qed.
Lemma ltl_irr log a : ~ ltl log a a.
Proof. intros (l2 & l1 & _ & H1 & H2). exact (H2 H1). Qed.
Lemma ltl_begun log a b : ltl log a b -> before_l log a.
Proof. intros (l2 & l1 & -> & H & _). apply before_app, H. Qed.
(** Two ends of one list. *)
Lemma two_ends {A} : forall (a b c d : list A), a ++ b = c ++ d ->
  (exists m, b = m ++ d) \/ (exists m, d = m ++ b).
Proof.
  induction a as [|x a IH]; intros b [|y c] d E; cbn in E.
  - left. exists []. exact E.
  - left. exists (y :: c). exact E.
  - right. exists (x :: a). symmetry. exact E.
  - injection E as _ E. exact (IH _ _ _ E).
Qed.
Lemma ltl_trans log a b d : ltl log a b -> ltl log b d -> ltl log a d.
Proof.
  intros (l2 & l1 & -> & A & NB) (k2 & k1 & E & B & ND). exists l2, l1. split; [reflexivity|]. split; [exact A|].
  intros HD. destruct (two_ends _ _ _ _ E) as [[m ->]|[m ->]].
  - apply NB, before_app, B.
  - apply ND, before_app, HD.
Qed.
Lemma ltl_asym log a b : ltl log a b -> ltl log b a -> False.
Proof. intros H1 H2. exact (ltl_irr _ _ (ltl_trans _ _ _ _ H1 H2)). Qed.
Lemma ltl_back l log a b : before_l log a -> ltl (l ++ log) a b -> ltl log a b.
Proof.
  intros A (l2 & l1 & E & A1 & NB). destruct (two_ends _ _ _ _ E) as [[m ->]|[m ->]].
  - exists m, l1. auto.
  - exists [], log. split; [reflexivity|]. split; [exact A|]. intros H. apply NB, before_app, H.
Qed.
Lemma ltl_fresh log a b : before_l log a -> ~ before_l log b -> ltl log a b.
Proof. intros A B. exists [], log. auto. Qed.

(** The node of a slot and the task of the coroutine in it. *)
Definition pr (sl : slot) : nid * nid := (sl_node sl, co_node (sl_coro sl)).
Definition prs (s : state) : list (nid * nid) := map pr (s_coros s).

Definition isrec (t : nid) (e : event) : bool :=
  match e with EAfterRun _ r _ => r_node r =? t | _ => false end.
Definition keep (new : list event) (t : nid) : bool := negb (existsb (isrec t) new).

Lemma keep_false new t : keep new t = false <-> exists er r x, In (EAfterRun er r x) new /\ r_node r = t.
Proof.
  unfold keep. rewrite Bool.negb_false_iff, existsb_exists. split.
  - intros (e & H & He). destruct e; try discriminate He. cbn in He. apply Nat.eqb_eq in He. eauto.
  - intros (er & r & x & H & E). exists (EAfterRun er r x). split; [exact H|]. cbn. apply Nat.eqb_eq, E.
Qed.
Lemma keep_quiet e new t : is_after e = false -> keep (e :: new) t = keep new t.
Proof. intros H. unfold keep. cbn. destruct e; try reflexivity. discriminate H. Qed.
Lemma keep_now er r x new t : keep (EAfterRun er r x :: new) t = negb (r_node r =? t) && keep new t.
Proof. unfold keep. cbn. destruct (r_node r =? t); reflexivity. Qed.

Definition sorted_lt (log : list event) (S : list (nid * nid)) : Prop :=
  ForallOrdPairs (ltl log) (map snd S).
Definition le_pair (log : list event) (p : nid * nid) : Prop := fst p = snd p \/ ltl log (fst p) (snd p).
Definition ord (log : list event) (S : list (nid * nid)) : Prop :=
  sorted_lt log S /\ Forall (le_pair log) S.

Lemma FOP_app {A} (R : A -> A -> Prop) l l' : ForallOrdPairs R (l ++ l') <->
  ForallOrdPairs R l /\ ForallOrdPairs R l' /\ (forall a b, In a l -> In b l' -> R a b).
Proof.
  induction l as [|x l IH]; cbn.
  - split; [intros H; split; [constructor|]; split; [exact H|intros a b []]|intros (_ & H & _); exact H].
  - split.
    + intros H. inversion H as [|? ? H1 H2]; subst. apply IH in H2 as (H2 & H3 & H4).
      apply Forall_app in H1 as [H1 H1']. split; [constructor; assumption|]. split; [exact H3|].
      intros a b [<-|Ha] Hb; [rewrite Forall_forall in H1'; apply H1', Hb|apply H4; assumption].
    + intros (H1 & H2 & H3). inversion H1 as [|? ? H4 H5]; subst. constructor.
      * apply Forall_app. split; [exact H4|]. apply Forall_forall. intros b Hb. apply H3; auto.
      * apply IH. split; [exact H5|]. split; [exact H2|]. intros a b Ha Hb. apply H3; auto.
Qed.
Lemma FOP_filter {A} (R : A -> A -> Prop) f l : ForallOrdPairs R l -> ForallOrdPairs R (filter f l).
Proof.
  induction 1 as [|x l H1 H2 IH]; cbn; [constructor|]. destruct (f x); [|exact IH]. constructor; [|exact IH].
  apply Forall_forall. intros y Hy. rewrite Forall_forall in H1. apply H1. apply filter_In in Hy. apply Hy.
Qed.
Lemma FOP_impl {A} (R R' : A -> A -> Prop) l : (forall a b, R a b -> R' a b) -> ForallOrdPairs R l -> ForallOrdPairs R' l.
Proof. intros H. induction 1; constructor; auto. eapply Forall_impl; [|eassumption]. auto. Qed.
Lemma FOP_NoDup {A} (R : A -> A -> Prop) l : (forall a, ~ R a a) -> ForallOrdPairs R l -> NoDup l.
Proof.
  intros H. induction 1 as [|x l H1 H2 IH]; constructor; [|exact IH]. intros Hx. rewrite Forall_forall in H1.
  exact (H x (H1 x Hx)).
Qed.

Lemma ord_app l log S : ord log S -> ord (l ++ log) S.
Proof.
  intros [H1 H2]. split.
  - eapply FOP_impl; [|exact H1]. intros a b. apply ltl_app.
  - eapply Forall_impl; [|exact H2]. intros p [H|H]; [left; exact H|right; apply ltl_app, H].
Qed.
Lemma ord_nodup log S : ord log S -> NoDup (map snd S).
Proof. intros [H _]. eapply FOP_NoDup; [|exact H]. apply ltl_irr. Qed.
Lemma nodup_fun {A B} (S : list (A * B)) a a' b : NoDup (map snd S) -> In (a, b) S -> In (a', b) S -> a = a'.
Proof.
  induction S as [|[x y] S IH]; intros N H1 H2; [destruct H1|]. cbn in N. inversion N as [|? ? N1 N2]; subst.
  destruct H1 as [H1|H1], H2 as [H2|H2].
  - congruence.
  - injection H1 as -> ->. exfalso. apply N1. change b with (snd (a', b)). apply in_map, H2.
  - injection H2 as -> ->. exfalso. apply N1. change b with (snd (a, b)). apply in_map, H1.
  - exact (IH N2 H1 H2).
Qed.

(** Moving the coroutines that stay to the front. *)
Lemma front (f : nid -> bool) : forall (S : list (nid * nid)) (X : list nid) l' t,
  In (l', t) (combine (X ++ map fst S) (filter f (map snd S))) ->
  exists A l B, S = A ++ (l, t) :: B /\ f t = true /\
    ((X = [] /\ (forall u, In u (map snd A) -> f u = true) /\ l' = l) \/
     ((X <> [] \/ exists u, In u (map snd A) /\ f u = false) /\ In l' (X ++ map fst A))).
Proof.
  induction S as [|[a b] S IH]; intros X l' t H.
  - cbn in H. rewrite combine_nil in H. destruct H.
  - cbn [map fst snd filter] in H. destruct (f b) eqn:Eb.
    + destruct X as [|x X].
      * cbn [app combine] in H. destruct H as [H|H].
        -- injection H as -> ->. exists [], l', S. split; [reflexivity|]. split; [exact Eb|]. left.
           split; [reflexivity|]. split; [intros u []|reflexivity].
        -- destruct (IH [] l' t H) as (A & l & B & -> & Ht & D). exists ((a, b) :: A), l, B.
           split; [reflexivity|]. split; [exact Ht|]. destruct D as [(_ & D1 & D2)|([D|(u & D1 & D2)] & D3)].
           ++ left. split; [reflexivity|]. split; [intros u [<-|Hu]; [exact Eb|apply D1, Hu]|exact D2].
           ++ congruence.
           ++ right. split; [right; exists u; split; [right; exact D1|exact D2]|]. cbn. right. exact D3.
      * cbn [app combine] in H. destruct H as [H|H].
        -- injection H as -> ->. exists [], a, S. split; [reflexivity|]. split; [exact Eb|]. right.
           split; [left; discriminate|]. left. reflexivity.
        -- replace (X ++ a :: map fst S) with ((X ++ [a]) ++ map fst S) in H by (rewrite <- app_assoc; reflexivity).
           destruct (IH _ l' t H) as (A & l & B & -> & Ht & D). exists ((a, b) :: A), l, B.
           split; [reflexivity|]. split; [exact Ht|]. right. split; [left; discriminate|].
           destruct D as [(D & _ & _)|(_ & D)]; [destruct X; discriminate D|]. rewrite <- app_assoc in D. right. exact D.
    + replace (X ++ a :: map fst S) with ((X ++ [a]) ++ map fst S) in H by (rewrite <- app_assoc; reflexivity).
      destruct (IH _ l' t H) as (A & l & B & -> & Ht & D). exists ((a, b) :: A), l, B.
      split; [reflexivity|]. split; [exact Ht|]. right.
      split; [right; exists b; split; [left; reflexivity|exact Eb]|].
      destruct D as [(D & _ & _)|(_ & D)]; [destruct X; discriminate D|]. rewrite <- app_assoc in D. exact D.
Qed.

(** One tick: the slots were [S0] and the log [log0] when it was called. *)
Definition pass_inv (S0 : list (nid * nid)) (log0 : list event) (s : state) : Prop :=
  exists new, s_log s = new ++ log0 /\
  (forall er r x, In (EAfterRun er r x) new -> In (x, r_node r) S0) /\
  (forall er m, In (EBeforeRun er m) new -> In (m, m) S0) /\
  match s_pc s with
  | Created => S0 = [] /\ s_log s = [] /\ s_coros s = []
  | Clean _ kept rest => prs s = S0 /\
      exists P, S0 = P ++ map pr rest /\ map co_node kept = filter (keep new) (map snd P) /\
        (forall er r x, In (EAfterRun er r x) new -> In (r_node r) (map snd P))
  | Suspended _ => exists tl,
      prs s = combine (map fst S0) (filter (keep new) (map snd S0)) ++ tl /\
      (forall t, In t (filter (keep new) (map snd S0)) -> before_l (s_log s) t) /\
      (tl = [] \/ exists m, tl = [(m, m)] /\ ~ before_l (s_log s) m)
  | _ => True
  end.

Definition is_bef (e : event) : bool := match e with EBeforeRun _ _ => true | _ => false end.
Definition quiet (e : event) : Prop := is_after e = false /\ is_bef e = false.

Lemma quiet_start c s : s_log s = [] -> forall e, In e (s_log (start c s)) -> is_bef e = false.
Proof.
  intros E0. unfold start. cbv zeta.
  assert (Hem : forall s es, (forall e, In e es -> is_bef e = false) ->
     (forall e, In e (s_log s) -> is_bef e = false) -> forall e, In e (s_log (emits s es)) -> is_bef e = false).
  { intros s1 es. revert s1. induction es as [|x es IH]; intros s1 H1 H2; [exact H2|]. cbn [emits fold_left].
    apply IH; [intros e He; apply H1; right; exact He|]. cbn. intros e [<-|He]; [apply H1; left; reflexivity|apply H2, He]. }
  assert (Htop : forall s, (forall e, In e (s_log s) -> is_bef e = false) ->
     forall e, In e (s_log (main_top s)) -> is_bef e = false).
  { intros s1 H e. unfold main_top, drain_top. destruct (s_todo s1); [destruct (s_coros s1)|]; cbn; try apply H;
    intros [<-|He]; [reflexivity|apply H, He|reflexivity|apply H, He]. }
  set (s0 := set_erec _ _).
  assert (H0 : forall e, In e (s_log s0) -> is_bef e = false).
  { unfold s0. intros e He. change (In e (s_log (emits (set_todo s (fold_left (fun l n => set_insert n l) (node_ids (c_dag c)) [])) (map EEnque (node_ids (c_dag c)))))) in He.
    revert e He. apply Hem; [|cbn; rewrite E0; intros e []].
    intros e He. apply in_map_iff in He as (n & <- & _). reflexivity. }
  assert (Hc : forall s cs, (forall e, In e (s_log s) -> is_bef e = false) ->
     forall e, In e (s_log (emits s (map ECycle cs))) -> is_bef e = false).
  { intros s1 cs H1. apply Hem; [|exact H1]. intros e He. apply in_map_iff in He as (n & <- & _). reflexivity. }
  assert (Hi : forall s ev, (forall e, In e (s_log s) -> is_bef e = false) ->
     forall e, In e (s_log (emits s (map inval_to_event ev))) -> is_bef e = false).
  { intros s1 ev H1. apply Hem; [|exact H1]. intros e He. apply in_map_iff in He as (i & <- & _). destruct i; reflexivity. }
  destruct (has_cycle _ _ _) as [[[|] cyc]|]; [| |exact H0].
  - apply (Hc s0 cyc H0).
  - destruct (inval_pass _ _ _ _ _ _) as [ns prop ev|n ev|n ev].
    + destruct (prop_loop _ _ _ _ _ _) as [ns' ev'|p|]; [|exact (Hc s0 cyc H0)|exact (Hc s0 cyc H0)].
      apply Htop. exact (Hi _ ev' (Hc s0 cyc H0)).
    + exact (Hi _ ev (Hc s0 cyc H0)).
    + exact (Hi _ ev (Hc s0 cyc H0)).
Qed.

(** Quiet events only, and the execution no longer goes on. *)
Lemma tick_stop S0 log0 s s' qs : pass_inv S0 log0 s -> inactive (s_pc s') ->
  s_log s' = qs ++ s_log s -> Forall quiet qs -> pass_inv S0 log0 s'.
Proof.
  intros (new & E & Ha & Hb & _) Hp El Hq. exists (qs ++ new). rewrite El, E, app_assoc. split; [reflexivity|].
  rewrite Forall_forall in Hq. split.
  { intros er r x H. apply in_app_or in H. destruct H as [H|H]; [destruct (Hq _ H) as [H' _]; discriminate H'|exact (Ha _ _ _ H)]. }
  split.
  { intros er m H. apply in_app_or in H. destruct H as [H|H]; [destruct (Hq _ H) as [_ H']; discriminate H'|exact (Hb _ _ H)]. }
  destruct (s_pc s'); try exact I; destruct Hp.
Qed.

Lemma tick_one S0 log0 s s' e : pass_inv S0 log0 s -> s_pc s' = s_pc s -> s_coros s' = s_coros s ->
  s_pc s <> Created -> s_log s' = e :: s_log s -> quiet e -> pass_inv S0 log0 s'.
Proof.
  intros (new & E & Ha & Hb & Hp) Epc Ec Hnc El [Q1 Q2]. exists (e :: new). rewrite El, E. split; [reflexivity|].
  split. { intros er r x [->|H]; [discriminate Q1|exact (Ha _ _ _ H)]. }
  split. { intros er m [->|H]; [discriminate Q2|exact (Hb _ _ H)]. }
  assert (Ek : forall l, filter (keep (e :: new)) l = filter (keep new) l)
    by (intros l; apply filter_ext; intros t; apply keep_quiet, Q1).
  unfold prs in *. rewrite Epc, Ec. destruct (s_pc s) as [|ph|ph kept rest| | | | | |] eqn:Ep; try exact I.
  - congruence.
  - destruct Hp as (tl & H1 & H2 & H3). exists tl. rewrite Ek. split; [exact H1|].
    split. { intros t Ht. rewrite <- E. apply before_mono, H2, Ht. }
    destruct H3 as [H3|(m & H3 & H4)]; [left; exact H3|right]. exists m. split; [exact H3|].
    intros [er [->|H]]; [discriminate Q2|]. rewrite <- E in H. apply H4. exists er. exact H.
  - destruct Hp as (H0 & P & H1 & H2 & H3). split; [exact H0|]. exists P. rewrite Ek. split; [exact H1|]. split; [exact H2|].
    intros er r x [->|H]; [discriminate Q1|exact (H3 _ _ _ H)].
Qed.

Lemma filter_app_one (f : nid -> bool) P t : f t = true -> filter f (P ++ [t]) = filter f P ++ [t].
Proof. intros H. rewrite filter_app. cbn. rewrite H. reflexivity. Qed.

(** The coroutine of the first slot of [rest] returns its record. *)
Lemma tick_complete S0 log0 s ph kept sl rest rec es s' : NoDup (map snd S0) ->
  s_pc s = Clean ph kept (sl :: rest) -> pass_inv S0 log0 s ->
  r_node rec = co_node (sl_coro sl) ->
  (forall e, In e es -> is_after e = false) ->
  (forall er m, In (EBeforeRun er m) es -> pr sl = (m, m)) ->
  s_log s' = EAfterRun (s_erec s) rec (sl_node sl) :: es ++ s_log s ->
  s_pc s' = Clean ph kept rest -> s_coros s' = s_coros s -> pass_inv S0 log0 s'.
Proof.
  intros N Epc (new & E & Ha & Hb & Hp) Er Qa Qb El Ep Ec. rewrite Epc in Hp.
  destruct Hp as (H0 & P & H1 & H2 & H3). cbn [map] in H1.
  assert (Hin : In (pr sl) S0) by (rewrite H1; apply in_or_app; right; left; reflexivity).
  exists (EAfterRun (s_erec s) rec (sl_node sl) :: es ++ new). rewrite El, E. split; [cbn [app]; rewrite <- app_assoc; reflexivity|].
  split. { intros er r x [H|H]; [injection H as <- <- <-; rewrite Er; exact Hin|].
           apply in_app_or in H. destruct H as [H|H]; [discriminate (Qa _ H)|exact (Ha _ _ _ H)]. }
  split. { intros er m [H|H]; [discriminate H|]. apply in_app_or in H. destruct H as [H|H]; [|exact (Hb _ _ H)].
           rewrite <- (Qb _ _ H). exact Hin. }
  rewrite Ep. unfold prs in *. rewrite Ec. split; [exact H0|].
  exists (P ++ [pr sl]). rewrite <- app_assoc. split; [exact H1|].
  assert (Nn : ~ In (co_node (sl_coro sl)) (map snd P)).
  { rewrite H1, map_app in N. cbn [map pr snd] in N. apply NoDup_remove_2 in N.
    intros H. apply N, in_or_app. left. exact H. }
  assert (Ek : forall t, keep (EAfterRun (s_erec s) rec (sl_node sl) :: es ++ new) t =
     negb (co_node (sl_coro sl) =? t) && keep new t).
  { intros t. rewrite keep_now, Er. f_equal. clear -Qa. induction es as [|e es IH]; [reflexivity|].
    cbn [app]. rewrite keep_quiet; [|apply Qa; left; reflexivity]. apply IH. intros e' H. apply Qa. right. exact H. }
  split.
  - rewrite map_app, filter_app. cbn [map filter pr snd]. rewrite Ek, Nat.eqb_refl. cbn [negb andb]. rewrite app_nil_r, H2.
    apply filter_ext_in. intros t Ht. rewrite Ek. destruct (Nat.eqb_spec (co_node (sl_coro sl)) t) as [<-|_]; [contradiction|reflexivity].
  - intros er r x [H|H].
    + injection H as <- <- <-. rewrite Er, map_app. apply in_or_app. right. left. reflexivity.
    + apply in_app_or in H. destruct H as [H|H]; [discriminate (Qa _ H)|]. rewrite map_app. apply in_or_app. left. exact (H3 _ _ _ H).
Qed.

Lemma combine_map_co : forall (l : list nid) (k : list coro),
  map pr (map (fun p => Slot (fst p) (snd p)) (combine l k)) = combine l (map co_node k).
Proof.
  induction l as [|a l IH]; intros [|k ks]; try reflexivity. cbn [combine map]. f_equal. apply IH.
Qed.
Lemma map_fst_pr cs : map sl_node cs = map fst (map pr cs).
Proof. rewrite map_map. reflexivity. Qed.

(** The end of a pass: what stays moves to the front. *)
Lemma tick_end S0 log0 s ph kept s' ph' tl : slots_inv s ->
  s_pc s = Clean ph kept [] -> pass_inv S0 log0 s ->
  s_log s' = s_log s -> s_pc s' = Suspended ph' -> s_coros s' = compact (s_coros s) kept ++ tl ->
  (tl = [] \/ exists m, tl = [Slot m (Coro m CFresh)] /\ ~ before_l (s_log s) m) -> pass_inv S0 log0 s'.
Proof.
  intros HS Epc (new & E & Ha & Hb & Hp) El Ep Ec Ht. rewrite Epc in Hp.
  destruct Hp as (H0 & P & H1 & H2 & H3). cbn [map] in H1. rewrite app_nil_r in H1. subst P.
  exists new. rewrite El. split; [exact E|]. split; [exact Ha|]. split; [exact Hb|]. rewrite Ep.
  exists (map pr tl). split; [|split].
  - unfold prs. rewrite Ec, map_app. f_equal. unfold compact. rewrite combine_map_co, H2, map_fst_pr.
    change (map pr (s_coros s)) with (prs s). rewrite H0. reflexivity.
  - intros t Hk. rewrite <- H2 in Hk. apply in_map_iff in Hk as (k & <- & Hk).
    destruct HS as [_ HS]. unfold slots_pc in HS. rewrite Epc in HS. destruct HS as (_ & HS & _).
    rewrite Forall_forall in HS. destruct (HS k Hk) as (rec & _ & _ & H). exact H.
  - destruct Ht as [->|(m & -> & Hm)]; [left; reflexivity|right]. exists m. auto.
Qed.

Lemma destroyed_quiet : Forall quiet [EDestroyed].
Proof. constructor; [split; reflexivity|constructor]. Qed.

Lemma pass_step0 c z S0 log0 s l s' : wf_dag (c_dag c) -> Inv c s -> reachable c z s -> NoDup (map snd S0) ->
  pass_inv S0 log0 s -> step c s l = Some s' -> l <> LTick -> (forall k, l <> LVisThrow k) -> pass_inv S0 log0 s'.
Proof.
  intros Hwf HI HR N HT E Hnt Hnv. pose proof (slots_run c z s Hwf HR) as HS.
  destruct l; cbn [step] in E.
  - congruence.
  - assert (Hi : inactive (s_pc s') /\ s_log s' = [] ++ s_log s).
    { destruct (s_pc s); try discriminate; inversion E; subst; (split; [exact I|reflexivity]). }
    destruct Hi as [Hi El]. exact (tick_stop _ _ _ _ _ HT Hi El (Forall_nil _)).
  - destruct (ctl_cases c s s' HI E) as
      [ph kept sl rest n s' Epc Esl _ Es|ph kept sl rest n s' Epc Esl _ _ Es
      |ph kept sl rest n s1 s' Epc Esl _ _ Es1 Es|ph kept sl rest n rec s' Epc Esl _ Es
      |ph kept sl rest n rec s' Epc Esl _ Es|ph kept sl rest n rec o s1 s2 s' Epc Esl _ Es1 Es2 Es
      |kept s1 s' Epc Es1 Es|kept s1 s' Epc Es1 Es|e s' Epc Es|e sl rest s' Epc _ Es|s' Epc Es|sl rest s' Epc _ Es].
    + assert (Hsl : pr sl = (n, n)).
      { destruct HS as [_ HS]. unfold slots_pc in HS. rewrite Epc in HS. destruct HS as (HS & _).
        inversion HS as [|? ? H _]; subst. unfold slot_ok in H. rewrite Esl in H. cbn in H. unfold pr. rewrite Esl, H. reflexivity. }
      eapply (tick_complete S0 log0 s ph kept sl rest (with_status (new_record c n (s_clock s)) DEPF) [EBeforeRun (s_erec s) n]);
        try eassumption; try (subst s'; reflexivity).
      * rewrite Esl. reflexivity.
      * intros e [<-|[]]. reflexivity.
      * intros er m [H|[]]. injection H as _ <-. exact Hsl.
    + assert (Hsl : pr sl = (n, n)).
      { destruct HS as [_ HS]. unfold slots_pc in HS. rewrite Epc in HS. destruct HS as (HS & _).
        inversion HS as [|? ? H _]; subst. unfold slot_ok in H. rewrite Esl in H. cbn in H. unfold pr. rewrite Esl, H. reflexivity. }
      eapply (tick_complete S0 log0 s ph kept sl rest (with_status (new_record c n (s_clock s)) SKIP) [EBeforeRun (s_erec s) n]);
        try eassumption; try (subst s'; reflexivity).
      * rewrite Esl. reflexivity.
      * intros e [<-|[]]. reflexivity.
      * intros er m [H|[]]. injection H as _ <-. exact Hsl.
    + assert (Hsl : pr sl = (n, n)).
      { destruct HS as [_ HS]. unfold slots_pc in HS. rewrite Epc in HS. destruct HS as (HS & _).
        inversion HS as [|? ? H _]; subst. unfold slot_ok in H. rewrite Esl in H. cbn in H. unfold pr. rewrite Esl, H. reflexivity. }
      destruct HT as (new & El & Ha & Hb & Hp). rewrite Epc in Hp. destruct Hp as (H0 & P & H1 & H2 & H3).
      assert (Hin : In (n, n) S0) by (rewrite H1, <- Hsl; apply in_or_app; right; left; reflexivity).
      exists (ELaunch n :: EBeforeRun (s_erec s) n :: new).
      split; [subst s' s1; cbn; rewrite El; reflexivity|].
      split. { intros er r x [H|[H|H]]; [discriminate H|discriminate H|exact (Ha _ _ _ H)]. }
      split. { intros er m [H|[H|H]]; [discriminate H|injection H as _ <-; exact Hin|exact (Hb _ _ H)]. }
      assert (Ep : s_pc s' = Clean ph kept (Slot (sl_node sl) (Coro n (CWait (new_record c n (s_clock s)))) :: rest))
        by (subst s' s1; reflexivity).
      rewrite Ep. unfold prs in *. assert (Ec : s_coros s' = s_coros s) by (subst s' s1; reflexivity). rewrite Ec.
      split; [exact H0|]. exists P. split.
      { rewrite H1. cbn [map]. unfold pr at 1. rewrite Esl. reflexivity. }
      split. { rewrite H2. apply filter_ext. intros t. unfold keep. reflexivity. }
      intros er r x [H|[H|H]]; [discriminate H|discriminate H|exact (H3 _ _ _ H)].
    + eapply (tick_one S0 log0 s s' (EBegin n)); [exact HT|subst s'; reflexivity|subst s'; reflexivity| |subst s'; reflexivity|split; reflexivity].
      rewrite Epc. discriminate.
    + destruct HT as (new & El & Ha & Hb & Hp). rewrite Epc in Hp. destruct Hp as (H0 & P & H1 & H2 & H3).
      exists (ETimeout n :: new). split; [subst s'; cbn; rewrite El; reflexivity|].
      split. { intros er r x [H|H]; [discriminate H|exact (Ha _ _ _ H)]. }
      split. { intros er m [H|H]; [discriminate H|exact (Hb _ _ H)]. }
      subst s'. unfold prs in *. cbn [s_pc set_pc s_coros emit]. split; [exact H0|].
      cbn [map] in H1. exists (P ++ [pr sl]). split; [rewrite <- app_assoc; exact H1|].
      assert (Hk : keep new n = true).
      { destruct (keep new n) eqn:Ek; [reflexivity|]. apply keep_false in Ek as (er & r & x & Hin & Er).
        apply H3 in Hin. rewrite Er in Hin. rewrite H1, map_app in N. cbn [map pr snd] in N. rewrite Esl in N. cbn in N.
        apply NoDup_remove_2 in N. destruct N. apply in_or_app. left. exact Hin. }
      split.
      * rewrite !map_app. cbn [map pr snd co_node]. rewrite Esl. cbn [co_node].
        rewrite filter_app_one; [|exact Hk]. rewrite H2. f_equal.
      * intros er r x [H|H]; [discriminate H|]. rewrite map_app. apply in_or_app. left. exact (H3 _ _ _ H).
    + assert (Er : r_node rec = n).
      { destruct HS as [_ HS]. unfold slots_pc in HS. rewrite Epc in HS. destruct HS as (H1 & _). inversion H1 as [|? ? Hsl _]; subst x l.
        unfold slot_ok in Hsl. rewrite Esl in Hsl. cbn in Hsl. apply Hsl. }
      eapply (tick_complete S0 log0 s ph kept sl rest (finish_record rec (run_lambda o) (s_clock s)) [ERunLog n (rr_log (run_lambda o))]);
        try eassumption.
      * rewrite Esl. exact Er.
      * intros e [<-|[]]. reflexivity.
      * intros er m [H|[]]. discriminate H.
      * subst s' s2 s1. destruct (negb _); reflexivity.
      * subst s'. reflexivity.
      * subst s' s2 s1. destruct (negb _); reflexivity.
    + subst s1. pose proof (i_pc _ _ HI) as Pi. unfold pc_inv in Pi. rewrite Epc in Pi. destruct Pi as [A _]. unfold act in A.
      destruct (dispatch_cases c s kept s' Hwf HI Epc Es) as [s' X1 X2 X3 X4|m0 s' X1 X2 X3 X4|s' X1 X2 X3]; clear Es.
      * eapply (tick_end S0 log0 s PMain kept s' PMain []); try eassumption; [subst s'; reflexivity..| |left; reflexivity].
        subst s'. cbn. rewrite app_nil_r. reflexivity.
      * eapply (tick_end S0 log0 s PMain kept s' PMain [Slot m0 (Coro m0 CFresh)]); try eassumption; [subst s'; reflexivity..|].
        right. exists m0. split; [reflexivity|]. cbn [s_todo set_coros] in X2. apply (a_idle _ _ _ _ _ _ _ _ A m0 (or_introl X2)).
      * eapply (tick_end S0 log0 s PMain kept s' PMain []); try eassumption; [subst s'; reflexivity..| |left; reflexivity].
        subst s'. cbn. rewrite app_nil_r. reflexivity.
    + subst s1. eapply (tick_end S0 log0 s PDrain kept s' PDrain []); try eassumption; [subst s'; reflexivity..| |left; reflexivity].
      subst s'. cbn. rewrite app_nil_r. reflexivity.
    + eapply (tick_stop _ _ _ _ [] HT); [subst s'; exact I|subst s'; reflexivity|constructor].
    + eapply (tick_stop _ _ _ _ [] HT); [subst s'; exact I|subst s'; reflexivity|constructor].
    + eapply (tick_stop _ _ _ _ [EDestroyed] HT); [subst s'; exact I|subst s'; reflexivity|exact destroyed_quiet].
    + eapply (tick_stop _ _ _ _ [] HT); [subst s'; exact I|subst s'; reflexivity|constructor].
  - destruct (launchfail_cases c s s' HI E) as (ph & kept & sl & rest & n & Epc & Esl & _ & Ep & El & _).
    assert (Hsl : pr sl = (n, n)).
    { destruct HS as [_ HS]. unfold slots_pc in HS. rewrite Epc in HS. destruct HS as (HS & _).
      inversion HS as [|? ? H _]; subst. unfold slot_ok in H. rewrite Esl in H. cbn in H. unfold pr. rewrite Esl, H. reflexivity. }
    destruct HT as (new & El0 & Ha & Hb & Hp). rewrite Epc in Hp. destruct Hp as (H0 & P & H1 & H2 & H3).
    exists (EBeforeRun (s_erec s) n :: new). rewrite El, El0, Ep. split; [reflexivity|].
    split. { intros er r x [H|H]; [discriminate H|exact (Ha _ _ _ H)]. }
    split; [|exact I]. intros er m [H|H]; [|exact (Hb _ _ H)]. injection H as _ <-.
    rewrite H1, <- Hsl. apply in_or_app. right. left. reflexivity.
  - destruct (Hnv k eq_refl).
  - destruct (s_fut s n) eqn:Ef; try discriminate. inversion E; subst.
    eapply (tick_one S0 log0 s _ (EBegin n)); [exact HT|reflexivity|reflexivity| |reflexivity|split; reflexivity].
    intros Epc. pose proof (i_pc _ _ HI) as P. unfold pc_inv in P. rewrite Epc in P. destruct P as (_ & _ & _ & _ & P & _).
    rewrite P in Ef. discriminate Ef.
  - destruct (s_fut s n) eqn:Ef; try discriminate. inversion E; subst.
    eapply (tick_one S0 log0 s _ (EEnd n o)); [exact HT|reflexivity|reflexivity| |reflexivity|split; reflexivity].
    intros Epc. pose proof (i_pc _ _ HI) as P. unfold pc_inv in P. rewrite Epc in P. destruct P as (_ & _ & _ & _ & P & _).
    rewrite P in Ef. discriminate Ef.
  - inversion E; subst. exact HT.
Qed.

Lemma pass_none s' log0 qs : s_log s' = qs ++ log0 -> Forall quiet qs -> inactive (s_pc s') -> pass_inv [] log0 s'.
Proof.
  intros El Hq Hi. rewrite Forall_forall in Hq. exists qs. split; [exact El|].
  split; [intros er r x H; destruct (Hq _ H) as [H' _]; discriminate H'|].
  split; [intros er m H; destruct (Hq _ H) as [_ H']; discriminate H'|].
  destruct (s_pc s'); try exact I; destruct Hi.
Qed.

(** A pass begins. *)
Lemma pass_first s' log0 qs ph : s_log s' = qs ++ log0 -> Forall quiet qs -> s_pc s' = Clean ph [] (s_coros s') ->
  pass_inv (prs s') log0 s'.
Proof.
  intros El Hq Ep. rewrite Forall_forall in Hq. exists qs. split; [exact El|].
  split; [intros er r x H; destruct (Hq _ H) as [H' _]; discriminate H'|].
  split; [intros er m H; destruct (Hq _ H) as [_ H']; discriminate H'|].
  rewrite Ep. split; [reflexivity|]. exists []. split; [reflexivity|]. split; [reflexivity|].
  intros er r x H. destruct (Hq _ H) as [H' _]. discriminate H'.
Qed.

Lemma pass_top s log0 qs : s_log s = qs ++ log0 -> Forall quiet qs ->
  (pass_inv (prs s) log0 (main_top s) \/ pass_inv [] log0 (main_top s)) /\
  (pass_inv (prs s) log0 (drain_top s) \/ pass_inv [] log0 (drain_top s)).
Proof.
  intros El Hq.
  assert (Hd : pass_inv (prs s) log0 (drain_top s) \/ pass_inv [] log0 (drain_top s)).
  { unfold drain_top. destruct (s_coros s) as [|sl cs] eqn:Ec.
    - right. eapply (pass_none _ _ (EAfterExec _ :: qs)); [cbn; rewrite El; reflexivity| |exact I].
      constructor; [split; reflexivity|exact Hq].
    - left. apply (pass_first (set_pc s (Clean PDrain [] (sl :: cs))) log0 qs PDrain); [exact El|exact Hq|cbn; congruence]. }
  split; [|exact Hd]. unfold main_top. destruct (s_todo s); [exact Hd|]. left.
  apply (pass_first (set_pc (emit s (EOnTick (s_erec s))) (Clean PMain [] (s_coros s))) log0 (EOnTick (s_erec s) :: qs) PMain);
    [cbn; rewrite El; reflexivity|constructor; [split; reflexivity|exact Hq]|reflexivity].
Qed.

Lemma pass_tick c s s' : wf_dag (c_dag c) -> Inv c s -> step c s LTick = Some s' ->
  exists S, pass_inv S (s_log s) s' /\ (S = [] \/ S = prs s /\ exists ph, s_pc s = Suspended ph).
Proof.
  intros Hwf HI E. cbn [step] in E. unfold tick in E.
  destruct (s_pc s) as [|ph| | | | | | |] eqn:Epc; try discriminate.
  - inversion E; subst s'. pose proof (i_pc _ _ HI) as P. unfold pc_inv in P. rewrite Epc in P.
    destruct P as [_ [_ [_ [_ [_ [_ El0]]]]]]. rewrite El0.
    assert (Hq : Forall quiet (s_log (start c s))).
    { apply Forall_forall. intros e He. split; [exact (no_after_start c s El0 e He)|exact (quiet_start c s El0 e He)]. }
    exists []. split; [|left; reflexivity].
    destruct (start_spec c Hwf s HI Epc) as [R [_ [Ecs _]]].
    inversion R as [? ? cyc L1 L2 L3|? ? m pre post L2 L1 L3 L4 L5 L6 L7|? ? m pre post L2 L1 L3 L4 L5 L6 L7
               |? ? s1 evd todo Es T1 El Ep Et Hso Ec Eck]; subst.
    + eapply (pass_none _ [] (s_log (start c s))); [rewrite app_nil_r; reflexivity|exact Hq|]. rewrite L2. exact I.
    + eapply (pass_none _ [] (s_log (start c s))); [rewrite app_nil_r; reflexivity|exact Hq|]. rewrite L2. exact I.
    + eapply (pass_none _ [] (s_log (start c s))); [rewrite app_nil_r; reflexivity|exact Hq|]. rewrite L2. exact I.
    + assert (Hq1 : Forall quiet (s_log s1)).
      { rewrite Es in Hq. unfold main_top, drain_top in Hq. rewrite Ec in Hq.
        destruct (s_todo s1); cbn in Hq; inversion Hq; assumption. }
      rewrite Es. destruct (pass_top s1 [] (s_log s1)) as [[Hx|Hx] _]; [rewrite app_nil_r; reflexivity|exact Hq1| |exact Hx].
      unfold prs in Hx. rewrite Ec in Hx. exact Hx.
  - assert (H : pass_inv (prs s) (s_log s) s' \/ pass_inv [] (s_log s) s').
    { destruct (pass_top s (s_log s) [] eq_refl (Forall_nil _)) as [H1 H2]. destruct ph; inversion E; subst s'; assumption. }
    destruct H as [H|H]; [exists (prs s)|exists []]; (split; [exact H|]); [right; eauto|left; reflexivity].
  - inversion E; subst. exists []. split; [|left; reflexivity]. apply (pass_none _ _ []); [reflexivity|constructor|exact I].
  - inversion E; subst. exists []. split; [|left; reflexivity]. apply (pass_none _ _ []); [reflexivity|constructor|exact I].
Qed.

Lemma tick_quiet c s s' : wf_dag (c_dag c) -> Inv c s -> step c s LTick = Some s' ->
  exists qs, s_log s' = qs ++ s_log s /\ Forall quiet qs.
Proof.
  intros Hwf HI E. cbn [step] in E. unfold tick in E.
  assert (Ht : forall s, exists qs, s_log (drain_top s) = qs ++ s_log s /\ Forall quiet qs).
  { intros s1. unfold drain_top. destruct (s_coros s1); [|exists []; split; [reflexivity|constructor]].
    eexists [_]. split; [reflexivity|]. constructor; [split; reflexivity|constructor]. }
  destruct (s_pc s) as [|ph| | | | | | |] eqn:Epc; try discriminate.
  - inversion E; subst s'. pose proof (i_pc _ _ HI) as P. unfold pc_inv in P. rewrite Epc in P.
    destruct P as [_ [_ [_ [_ [_ [_ El0]]]]]]. rewrite El0. exists (s_log (start c s)). split; [rewrite app_nil_r; reflexivity|].
    apply Forall_forall. intros e He. split; [exact (no_after_start c s El0 e He)|exact (quiet_start c s El0 e He)].
  - destruct ph; inversion E; subst s'; [|apply Ht]. unfold main_top. destruct (s_todo s); [apply Ht|].
    eexists [_]. split; [reflexivity|]. constructor; [split; reflexivity|constructor].
  - inversion E; subst. exists []. split; [reflexivity|constructor].
  - inversion E; subst. exists []. split; [reflexivity|constructor].
Qed.

Lemma pass_step c z S0 log0 s l s' : wf_dag (c_dag c) -> Inv c s -> reachable c z s -> NoDup (map snd S0) ->
  pass_inv S0 log0 s -> step c s l = Some s' -> l <> LTick -> pass_inv S0 log0 s'.
Proof.
  intros Hwf HI HR N HT E Hnt.
  assert (Hl : (exists k, l = LVisThrow k) \/ forall k, l <> LVisThrow k) by (destruct l; eauto; right; discriminate).
  destruct Hl as [[k ->]|Hl]; [|eapply pass_step0; eassumption]. cbn [step] in E.
  destruct (match s_pc s with Created | Suspended _ => tick c s | Clean _ _ _ => ctl c s true | _ => None end) as [s1|] eqn:E1; [|discriminate].
  destruct (visthrow_cases s s1 k s' E) as [es [rest [Es [es2 Ees]]]].
  assert (El : s_log s' = rev es ++ s_log s) by (rewrite Es, emits_eq; destruct s; reflexivity).
  assert (Hi : inactive (s_pc s')) by (rewrite Es; exact I).
  assert (HL : (step c s LTick = Some s1) \/ step c s LCtl = Some s1).
  { destruct (s_pc s); try discriminate; [left|left|right]; exact E1. }
  destruct HL as [HL|HL].
  - destruct (tick_quiet c s s1 Hwf HI HL) as (qs & Eq & Hq).
    rewrite Eq, app_length, Nat.add_sub, firstn_app, Nat.sub_diag, firstn_O, app_nil_r, firstn_all in Ees.
    eapply tick_stop; [exact HT|exact Hi|exact El|]. apply Forall_forall. intros e He. rewrite Forall_forall in Hq. apply Hq.
    apply in_rev. rewrite Ees. apply in_or_app. left. apply in_rev. exact He.
  - destruct (step_log c s LCtl s1 Hwf HI HL) as [nw En].
    rewrite En, app_length, Nat.add_sub, firstn_app, Nat.sub_diag, firstn_O, app_nil_r, firstn_all in Ees.
    assert (El1 : s_log s1 = rev es2 ++ rev es ++ s_log s) by (rewrite app_assoc, <- rev_app_distr, <- Ees, rev_involutive; exact En).
    assert (HT1 : pass_inv S0 log0 s1) by (eapply pass_step0; try eassumption; discriminate).
    destruct HT as (new & E0 & _ & _ & _). destruct HT1 as (new1 & E2 & Ha & Hb & _).
    assert (En1 : new1 = rev es2 ++ rev es ++ new).
    { rewrite El1, E0, !app_assoc in E2. apply app_inv_tail in E2. rewrite <- E2, !app_assoc. reflexivity. }
    exists (rev es ++ new). rewrite El, E0, app_assoc. split; [reflexivity|].
    split; [intros er r x H; apply (Ha er r x); rewrite En1; apply in_or_app; right; exact H|].
    split; [intros er m H; apply (Hb er m); rewrite En1; apply in_or_app; right; exact H|].
    destruct (s_pc s'); try exact I; destruct Hi.
Qed.

(** The nodes stay in order, and no slot's node was begun after the task in it. *)
Lemma ord_pass S0 log0 s ph : ord log0 S0 -> pass_inv S0 log0 s -> s_pc s = Suspended ph -> ord (s_log s) (prs s).
Proof.
  intros HO (new & El & Ha & Hb & Hp) Epc. rewrite Epc in Hp. destruct Hp as (tl & H1 & H2 & H3).
  apply (ord_app new) in HO. rewrite <- El in HO. destruct HO as [O1 O2]. rewrite H1.
  set (T := filter (keep new) (map snd S0)) in *.
  assert (HlenT : List.length T <= List.length (map fst S0)).
  { unfold T. rewrite map_length, <- (map_length snd). clear. induction (map snd S0) as [|x l IH]; cbn; [lia|].
    destruct (keep new x); cbn; lia. }
  assert (Hsnd : map snd (combine (map fst S0) T) = T).
  { revert HlenT. generalize (map fst S0). clear. induction T as [|t T IH]; intros [|x l] H; cbn in *; try lia; try reflexivity.
    f_equal. apply IH. lia. }
  split.
  - unfold sorted_lt. rewrite map_app, Hsnd. apply FOP_app. split; [apply FOP_filter, O1|].
    destruct H3 as [->|(m & -> & Hm)]; cbn [map snd].
    + split; [constructor|intros a b _ []].
    + split; [constructor; constructor|]. intros a b Ha' [<-|[]]. apply ltl_fresh; [apply H2, Ha'|exact Hm].
  - apply Forall_app. split.
    + apply Forall_forall. intros [l' t] Hin. destruct (front (keep new) S0 [] l' t Hin) as (A & l & B & E & _ & D).
      subst S0. apply Forall_app in O2 as [O2 O3]. inversion O3 as [|? ? O4 _]; subst.
      destruct D as [(_ & _ & ->)|(_ & D)]; [exact O4|]. right. cbn [fst snd app] in *.
      apply in_map_iff in D as ([l1 t1] & <- & Hin1). rewrite Forall_forall in O2. pose proof (O2 _ Hin1) as O5.
      unfold sorted_lt in O1. rewrite map_app in O1. apply FOP_app in O1 as (_ & _ & O1).
      assert (Ht : ltl (s_log s) t1 t) by (apply O1; [change t1 with (snd (l1, t1)); apply in_map, Hin1|left; reflexivity]).
      destruct O5 as [O5|O5]; cbn [fst snd] in *; [rewrite O5; exact Ht|eapply ltl_trans; eassumption].
    + destruct H3 as [->|(m & -> & Hm)]; [constructor|]. constructor; [left; reflexivity|constructor].
Qed.

(** [n]'s slot is its own iff nothing begun before [n] was recorded since [log1]. *)
Definition own (n : nid) (log1 : list event) (log0 : list event) (S0 : list (nid * nid)) : Prop :=
  exists mid, log0 = mid ++ log1 /\
  forall l, In (l, n) S0 ->
    (l = n <-> forall er r x, In (EAfterRun er r x) mid -> ~ ltl log0 (r_node r) n).

Lemma own_pass n log1 S0 log0 s ph : before_l (s_log s) n ->
  (forall er r x, In (EAfterRun er r x) (s_log s) -> before_l (s_log s) (r_node r)) ->
  (forall er r x, In (EAfterRun er r x) log0 -> before_l log0 (r_node r)) ->
  ord log0 S0 -> own n log1 log0 S0 -> pass_inv S0 log0 s -> s_pc s = Suspended ph ->
  own n log1 (s_log s) (prs s).
Proof.
  intros Hn Hrb Hrb0 HO (mid & Em & Hm) HT Epc.
  destruct HT as (new & El & Ha & Hb & Hp). rewrite Epc in Hp. destruct Hp as (tl & H1 & H2 & H3).
  exists (new ++ mid). split; [rewrite El, Em, app_assoc; reflexivity|].
  intros l' Hin. rewrite H1 in Hin. apply in_app_or in Hin. destruct Hin as [Hin|Hin].
  2:{ destruct H3 as [->|(m & -> & Hf)]; [destruct Hin|]. destruct Hin as [Hin|[]]. injection Hin as <- ->. contradiction. }
  apply (ord_app new) in HO. rewrite <- El in HO. destruct HO as [O1 O2].
  destruct (front (keep new) S0 [] l' n Hin) as (A & l & B & E & Hk & D).
  assert (Hl : In (l, n) S0) by (rewrite E; apply in_or_app; right; left; reflexivity).
  assert (HA : forall t, In t (map snd A) -> ltl (s_log s) t n).
  { intros t Ht. unfold sorted_lt in O1. rewrite E, map_app in O1. apply FOP_app in O1 as (_ & _ & O1). apply O1; [exact Ht|left; reflexivity]. }
  assert (HB : forall t, In t (map snd B) -> ltl (s_log s) n t).
  { intros t Ht. unfold sorted_lt in O1. rewrite E, map_app in O1. apply FOP_app in O1 as (_ & O1 & _). cbn [map snd] in O1.
    inversion O1 as [|? ? O3 _]; subst. rewrite Forall_forall in O3. apply O3, Ht. }
  destruct D as [(_ & D1 & ->)|([D|(u & D1 & D2)] & D3)].
  - rewrite (Hm l Hl). split.
    + intros H er r x Hin' Hlt. apply in_app_or in Hin'. destruct Hin' as [Hin'|Hin'].
      * assert (Hkr : keep new (r_node r) = false) by (apply keep_false; eauto).
        pose proof (Ha _ _ _ Hin') as Hs. apply (in_map snd) in Hs. cbn in Hs. rewrite E, map_app in Hs. cbn [map snd] in Hs.
        apply in_app_or in Hs. destruct Hs as [Hs|[Hs|Hs]].
        -- rewrite (D1 _ Hs) in Hkr. discriminate Hkr.
        -- rewrite <- Hs in Hkr. congruence.
        -- exact (ltl_asym _ _ _ Hlt (HB _ Hs)).
      * apply (H er r x Hin'). apply (ltl_back new); [|rewrite <- El; exact Hlt]. apply (Hrb0 er r x).
        rewrite Em. apply in_or_app. left. exact Hin'.
    + intros H er r x Hin' Hlt. apply (H er r x); [apply in_or_app; right; exact Hin'|]. rewrite El. apply ltl_app, Hlt.
  - destruct (D eq_refl).
  - split.
    + intros ->. exfalso. cbn [app] in D3. apply in_map_iff in D3 as ([l1 t1] & E1 & Hin1). cbn in E1. subst l1.
      rewrite E in O2. apply Forall_app in O2 as [O2 _]. rewrite Forall_forall in O2. pose proof (O2 _ Hin1) as O5.
      pose proof (HA t1 (in_map snd _ _ Hin1)) as Ht. destruct O5 as [O5|O5]; cbn in O5.
      * subst t1. exact (ltl_irr _ _ Ht).
      * exact (ltl_asym _ _ _ O5 Ht).
    + intros H. exfalso. apply keep_false in D2 as (er & r & x & Hr & <-).
      apply (H er r x); [apply in_or_app; left; exact Hr|apply HA, D1].
Qed.

Lemma begun_ltl s a b : begun_before (trace s) a b <-> ltl (s_log s) a b.
Proof.
  assert (H1 : forall l n, before_l (rev l) n -> task_begun l n)
    by (intros l n [er H]; exists er; apply in_rev; exact H).
  assert (H2 : forall l n, task_begun l n -> before_l (rev l) n)
    by (intros l n [er H]; exists er; apply -> in_rev; exact H).
  split.
  - intros (p & q & E & A & B). exists (rev q), (rev p). split.
    + rewrite <- rev_app_distr, <- E. unfold trace. rewrite rev_involutive. reflexivity.
    + split; [apply H2, A|]. intros H. apply B, H1, H.
  - intros (l2 & l1 & E & A & B). exists (rev l1), (rev l2). unfold trace. rewrite E, rev_app_distr. split; [reflexivity|].
    split; [apply H1; rewrite rev_involutive; exact A|]. intros H. apply B. apply H2 in H. rewrite rev_involutive in H. exact H.
Qed.

Lemma reach_step c z s l s' : reachable c z s -> step c s l = Some s' -> reachable c z s'.
Proof. intros [ls E] H. exists (ls ++ [l]). rewrite run_labels_app, E. cbn. rewrite H. reflexivity. Qed.

Lemma rec_begun c z s l log0 er r x : wf_dag (c_dag c) -> reachable c z s -> s_log s = l ++ log0 ->
  In (EAfterRun er r x) log0 -> before_l log0 (r_node r).
Proof.
  intros Hwf HR E H. pose proof (r_log c z s Hwf HR) as L. rewrite E in L. apply log_ok_app in L.
  apply in_split in H as (a & b & ->). apply log_ok_app in L. destruct L as [[L _] _]. cbn in L.
  destruct L as (_ & _ & L & _). apply before_app, before_mono, L.
Qed.

Section Runs.
Variables (c : config) (z : Z).
Hypothesis Hwf : wf_dag (c_dag c).

Lemma ord_nil log : ord log [].
Proof. split; constructor. Qed.

Lemma pass_run S0 log0 : NoDup (map snd S0) -> forall ls s s', ~ In LTick ls -> reachable c z s -> pass_inv S0 log0 s ->
  run_labels c s ls = Some s' -> pass_inv S0 log0 s'.
Proof.
  intros N. induction ls as [|l ls IH]; intros s s' Hn HR HT E; cbn in E; [injection E as <-; exact HT|].
  destruct (step c s l) as [s1|] eqn:E1; [|discriminate]. apply (IH s1 s'); [|eapply reach_step; eassumption| |exact E].
  - intros H. apply Hn. right. exact H.
  - eapply pass_step; try eassumption; [apply (r_inv c z); assumption|]. intros ->. apply Hn. left. reflexivity.
Qed.

Lemma ord_step s l s' : reachable c z s -> step c s l = Some s' ->
  (exists S0 log0, ord log0 S0 /\ pass_inv S0 log0 s) -> exists S0 log0, ord log0 S0 /\ pass_inv S0 log0 s'.
Proof.
  intros HR E (S0 & log0 & HO & HT).
  assert (Hd : l = LTick \/ l <> LTick) by (destruct l; auto; right; discriminate).
  destruct Hd as [->|Hd].
  - destruct (pass_tick c s s' Hwf (r_inv c z s Hwf HR) E) as (S1 & H & [->|(-> & ph & Ep)]).
    + exists [], (s_log s). split; [apply ord_nil|exact H].
    + exists (prs s), (s_log s). split; [eapply ord_pass; eassumption|exact H].
  - exists S0, log0. split; [exact HO|]. eapply pass_step; try eassumption; [apply (r_inv c z); assumption|].
    eapply ord_nodup, HO.
Qed.

Lemma ord_run s : reachable c z s -> exists S0 log0, ord log0 S0 /\ pass_inv S0 log0 s.
Proof.
  intros [ls E].
  assert (G : forall ls s0 s, reachable c z s0 -> (exists S0 log0, ord log0 S0 /\ pass_inv S0 log0 s0) ->
    run_labels c s0 ls = Some s -> exists S0 log0, ord log0 S0 /\ pass_inv S0 log0 s).
  { clear ls s E. induction ls as [|l ls IH]; intros s0 s HR HG E; cbn in E; [injection E as <-; exact HG|].
    destruct (step c s0 l) as [s1|] eqn:E1; [|discriminate].
    apply (IH s1 s); [eapply reach_step; eassumption|eapply ord_step; eassumption|exact E]. }
  apply (G ls (init z) s); [exists []; reflexivity| |exact E].
  exists [], []. split; [apply ord_nil|]. exists []. split; [reflexivity|]. split; [intros ? ? ? []|]. split; [intros ? ? []|].
  cbn. auto.
Qed.

Lemma own_step n log1 s l s' : reachable c z s -> step c s l = Some s' -> before_l (s_log s) n ->
  (exists S0 log0, ord log0 S0 /\ own n log1 log0 S0 /\ pass_inv S0 log0 s) ->
  exists S0 log0, ord log0 S0 /\ own n log1 log0 S0 /\ pass_inv S0 log0 s'.
Proof.
  intros HR E Hn (S0 & log0 & HO & HW & HT).
  assert (Hd : l = LTick \/ l <> LTick) by (destruct l; auto; right; discriminate).
  destruct Hd as [->|Hd].
  - destruct (pass_tick c s s' Hwf (r_inv c z s Hwf HR) E) as (S1 & H & [->|(-> & ph & Ep)]).
    + exists [], (s_log s). split; [apply ord_nil|]. split; [|exact H].
      destruct HW as (mid & Em & _). destruct HT as (new & El & _). exists (new ++ mid).
      split; [rewrite El, Em, app_assoc; reflexivity|intros l []].
    + exists (prs s), (s_log s). split; [eapply ord_pass; eassumption|]. split; [|exact H].
      eapply own_pass; try eassumption.
      * intros er r x. apply (rec_begun c z s []); auto.
      * destruct HT as (new & El & _). intros er r x. apply (rec_begun c z s new); auto.
  - exists S0, log0. split; [exact HO|]. split; [exact HW|]. eapply pass_step; try eassumption; [apply (r_inv c z); assumption|].
    eapply ord_nodup, HO.
Qed.

Lemma own_run n log1 : forall ls s0 s, reachable c z s0 -> before_l (s_log s0) n ->
  (exists S0 log0, ord log0 S0 /\ own n log1 log0 S0 /\ pass_inv S0 log0 s0) ->
  run_labels c s0 ls = Some s -> exists S0 log0, ord log0 S0 /\ own n log1 log0 S0 /\ pass_inv S0 log0 s.
Proof.
  induction ls as [|l ls IH]; intros s0 s HR Hb HG E; cbn in E; [injection E as <-; exact HG|].
  destruct (step c s0 l) as [s1|] eqn:E1; [|discriminate].
  apply (IH s1 s); [eapply reach_step; eassumption| |eapply own_step; eassumption|exact E].
  destruct (step_log c s0 l s1 Hwf (r_inv c z s0 Hwf HR) E1) as [nw ->]. apply before_app, Hb.
Qed.

(** One call of tick: the slots it starts with. *)
Lemma within_pass s s' : reachable c z s -> within_tick c s s' ->
  exists S, pass_inv S (s_log s) s' /\ NoDup (map snd S) /\ ord (s_log s) S /\
    (S = [] \/ S = prs s /\ exists ph, s_pc s = Suspended ph).
Proof.
  intros HR (ls & E & Hn). cbn [run_labels] in E. destruct (step c s LTick) as [a|] eqn:Ea; [|discriminate].
  destruct (pass_tick c s a Hwf (r_inv c z s Hwf HR) Ea) as (S & H & D). exists S.
  assert (HO : ord (s_log s) S).
  { destruct D as [->|(-> & ph & Ep)]; [apply ord_nil|]. destruct (ord_run s HR) as (S0 & log0 & H1 & H2). eapply ord_pass; eassumption. }
  split; [|split; [eapply ord_nodup, HO|split; [exact HO|exact D]]].
  eapply pass_run; [eapply ord_nodup, HO|exact Hn|eapply reach_step; eassumption|exact H|exact E].
Qed.

Lemma trace_new s s' l new : trace s' = trace s ++ l -> s_log s' = new ++ s_log s -> l = rev new.
Proof.
  unfold trace. intros E1 E2. rewrite E2, rev_app_distr in E1. apply app_inv_head in E1. symmetry. exact E1.
Qed.

Lemma within_reach s s' : reachable c z s -> within_tick c s s' -> reachable c z s'.
Proof. intros [l1 E1] (l2 & E2 & _). exists (l1 ++ LTick :: l2). rewrite run_labels_app, E1. exact E2. Qed.

Theorem after_run_exact s0 s1 s2 s3 l1 lc mid l3 er1 er3 r x :
  reachable c z s0 ->
  within_tick c s0 s1 -> trace s1 = trace s0 ++ l1 -> In (EBeforeRun er1 (r_node r)) l1 ->
  run_labels c s1 lc = Some s2 -> trace s2 = trace s0 ++ mid ->
  within_tick c s2 s3 -> trace s3 = trace s2 ++ l3 -> In (EAfterRun er3 r x) l3 ->
  (x = r_node r <->
   forall er' r' x', In (EAfterRun er' r' x') mid -> ~ begun_before (trace s2) (r_node r') (r_node r)).
Proof.
  intros HR W1 T1 B1 R2 T2 W3 T3 A3. set (n := r_node r) in *.
  destruct (within_pass s0 s1 HR W1) as (S0 & P1 & N1 & O1 & D1).
  assert (HR1 : reachable c z s1) by (eapply within_reach; eassumption).
  assert (HR2 : reachable c z s2) by (destruct HR1 as [ls E]; exists (ls ++ lc); rewrite run_labels_app, E; exact R2).
  assert (Hn : In (n, n) S0 /\ before_l (s_log s1) n).
  { destruct P1 as (new & El & _ & Hb & _). rewrite (trace_new _ _ _ _ T1 El) in B1. apply in_rev in B1. split; [exact (Hb _ _ B1)|].
    rewrite El. exists er1. apply in_or_app. left. exact B1. }
  destruct Hn as [Hn Hb1].
  assert (HW1 : own n (s_log s0) (s_log s0) S0).
  { exists []. split; [reflexivity|]. intros l Hl. rewrite (nodup_fun _ _ _ _ N1 Hl Hn). split; [intros _ ? ? ? []|reflexivity]. }
  destruct (own_run n (s_log s0) lc s1 s2 HR1 Hb1) as (S2 & log2 & O2 & W2 & P2).
  { exists S0, (s_log s0). auto. } { exact R2. }
  destruct (within_pass s2 s3 HR2 W3) as (S3 & P3 & N3 & O3 & D3).
  assert (Hx : In (x, n) S3).
  { destruct P3 as (new & El & Ha & _). rewrite (trace_new _ _ _ _ T3 El) in A3. apply in_rev in A3. exact (Ha _ _ _ A3). }
  destruct D3 as [->|(-> & ph & Ep)]; [destruct Hx|].
  assert (Hb2 : before_l (s_log s2) n).
  { destruct (run_log c Hwf lc s1 s2 (r_inv c z s1 Hwf HR1) R2) as [nw ->]. apply before_app, Hb1. }
  assert (HW : own n (s_log s0) (s_log s2) (prs s2)).
  { apply (own_pass n (s_log s0) S2 log2 s2 ph Hb2); [| |exact O2|exact W2|exact P2|exact Ep].
    - intros er' r' x'. apply (rec_begun c z s2 []); [exact Hwf|exact HR2|reflexivity].
    - destruct P2 as (new & El & _). intros er' r' x'. apply (rec_begun c z s2 new); [exact Hwf|exact HR2|exact El]. }
  destruct HW as (mid' & Em & HW). rewrite (HW x Hx). rewrite (trace_new _ _ _ _ T2 Em).
  split; intros H er' r' x' Hin.
  - rewrite begun_ltl. apply (H er' r' x'), in_rev, Hin.
  - rewrite <- begun_ltl. apply (H er' r' x'). apply -> in_rev. exact Hin.
Qed.

Theorem after_run_earlier s2 s3 l3 er3 r x :
  reachable c z s2 -> within_tick c s2 s3 -> trace s3 = trace s2 ++ l3 -> In (EAfterRun er3 r x) l3 ->
  x = r_node r \/ begun_before (trace s2) x (r_node r).
Proof.
  intros HR W3 T3 A3. destruct (within_pass s2 s3 HR W3) as (S3 & P3 & N3 & [_ O3] & D3).
  destruct P3 as (new & El & Ha & _). rewrite (trace_new _ _ _ _ T3 El) in A3. apply in_rev in A3.
  rewrite begun_ltl. rewrite Forall_forall in O3. exact (O3 _ (Ha _ _ _ A3)).
Qed.

Theorem after_run_same_tick s0 s1 l1 er1 er2 r x :
  reachable c z s0 -> within_tick c s0 s1 -> trace s1 = trace s0 ++ l1 ->
  In (EBeforeRun er1 (r_node r)) l1 -> In (EAfterRun er2 r x) l1 -> x = r_node r.
Proof.
  intros HR W T B A. destruct (within_pass s0 s1 HR W) as (S0 & P & N & _ & _).
  destruct P as (new & El & Ha & Hb & _). rewrite (trace_new _ _ _ _ T El) in A, B. apply in_rev in A. apply in_rev in B.
  exact (nodup_fun _ _ _ _ N (Ha _ _ _ A) (Hb _ _ B)).
Qed.
End Runs.
