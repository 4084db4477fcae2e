(** Facts about executions of a graph with flags set before. *)
From Coq Require Import Lia String List.
From Verif Require Import Model.Common Model.Records Model.Jobs Model.TaskSet Model.Dag
     Model.Sched Model.Exec Model.Preset Spec.Graph Spec.Trace Proofs.Sets Proofs.SchedFacts Proofs.ExecProps3.
Import ListNotations.
Open Scope nat_scope.
Open Scope list_scope.

Lemma upd_same {A} (f : nat -> A) n v : upd f n v n = v.
Proof. unfold upd. rewrite Nat.eqb_refl. reflexivity. Qed.
Lemma upd_other {A} (f : nat -> A) n v m : m <> n -> upd f n v m = f m.
Proof. intros H. unfold upd. apply Nat.eqb_neq in H. rewrite H. reflexivity. Qed.

(** * Flags are never taken back *)

Definition keeps (f g : nid -> nstate) : Prop := forall n,
  (ns_started (f n) = true -> ns_started (g n) = true) /\
  (ns_done (f n) = true -> ns_done (g n) = true) /\
  (ns_failed (f n) = true -> ns_failed (g n) = true).
Lemma keeps_refl f : keeps f f.
Proof. intros n. auto. Qed.
Lemma keeps_trans f g h : keeps f g -> keeps g h -> keeps f h.
Proof. intros A B n. destruct (A n) as (A1 & A2 & A3), (B n) as (B1 & B2 & B3). auto. Qed.
Lemma keeps_upd f n v :
  (ns_started (f n) = true -> ns_started v = true) -> (ns_done (f n) = true -> ns_done v = true) ->
  (ns_failed (f n) = true -> ns_failed v = true) -> keeps f (upd f n v).
Proof.
  intros H1 H2 H3 m. destruct (Nat.eq_dec m n) as [->|Hm]; [rewrite upd_same; auto|rewrite upd_other by exact Hm; auto].
Qed.
Lemma keeps_inval f n v : keeps f (set_inval f n v).
Proof. apply keeps_upd; cbn; auto. Qed.

Lemma pass_keeps hj ask : forall ns st prop ev st' prop' ev',
  inval_pass hj ask ns st prop ev = PassOk st' prop' ev' -> keeps st st'.
Proof.
  induction ns as [|n ns IH]; intros st prop ev st' prop' ev' H; cbn in H; [injection H as <- _ _; apply keeps_refl|].
  destruct (negb (hj n)); [discriminate|]. destruct (ask n); [|discriminate].
  eapply keeps_trans; [apply keeps_inval|]. eapply IH, H.
Qed.
Lemma edges_keeps : forall es seen st todo ev st' todo' ev',
  prop_edges es seen st todo ev = (st', todo', ev') -> keeps st st'.
Proof.
  induction es as [|e es IH]; intros seen st todo ev st' todo' ev' H; cbn in H; [injection H as <- _ _; apply keeps_refl|].
  destruct (mem (e_src e) seen); [eapply IH, H|]. eapply keeps_trans; [apply keeps_inval|]. eapply IH, H.
Qed.
Lemma loop_keeps : forall fuel d st todo seen ev st' ev',
  prop_loop fuel d st todo seen ev = PropOk st' ev' -> keeps st st'.
Proof.
  induction fuel as [|fuel IH]; intros d st todo seen ev st' ev' H; cbn in H; destruct todo as [|p todo];
    try discriminate; try (injection H as <- _; apply keeps_refl).
  destruct (negb _); [discriminate|]. destruct (prop_edges _ _ _ _ _) as [[st1 t1] e1] eqn:E.
  eapply keeps_trans; [eapply edges_keeps, E|]. eapply IH, H.
Qed.

Lemma emits_ns es : forall s, s_ns (emits s es) = s_ns s.
Proof. induction es as [|e es IH]; intros s; [reflexivity|]. cbn. unfold emits in IH. rewrite IH. reflexivity. Qed.
Lemma emits_todo es : forall s, s_todo (emits s es) = s_todo s.
Proof. induction es as [|e es IH]; intros s; [reflexivity|]. cbn. unfold emits in IH. rewrite IH. reflexivity. Qed.
Lemma emits_coros es : forall s, s_coros (emits s es) = s_coros s.
Proof. induction es as [|e es IH]; intros s; [reflexivity|]. cbn. unfold emits in IH. rewrite IH. reflexivity. Qed.
Lemma emits_pc es : forall s, s_pc (emits s es) = s_pc s.
Proof. induction es as [|e es IH]; intros s; [reflexivity|]. cbn. unfold emits in IH. rewrite IH. reflexivity. Qed.
Lemma emits_log es : forall s, s_log (emits s es) = rev es ++ s_log s.
Proof. induction es as [|e es IH]; intros s; [reflexivity|]. cbn. unfold emits in IH. rewrite IH. cbn. rewrite <- app_assoc. reflexivity. Qed.
Lemma emits_fut es : forall s, s_fut (emits s es) = s_fut s.
Proof. induction es as [|e es IH]; intros s; [reflexivity|]. cbn. unfold emits in IH. rewrite IH. reflexivity. Qed.
Lemma main_top_ns s : s_ns (main_top s) = s_ns s.
Proof. unfold main_top, drain_top. destruct (s_todo s), (s_coros s); reflexivity. Qed.
Lemma drain_top_ns s : s_ns (drain_top s) = s_ns s.
Proof. unfold drain_top. destruct (s_coros s); reflexivity. Qed.

Lemma start_keeps c s : keeps (s_ns s) (s_ns (start c s)).
Proof.
  unfold start. cbv zeta. destruct (has_cycle _ _ _) as [[[|] cyc]|].
  - cbn [set_pc s_ns]. rewrite !emits_ns. cbn [set_erec s_ns]. rewrite emits_ns. apply keeps_refl.
  - destruct (inval_pass _ _ _ _ _ _) as [ns' prop ev|n ev|n ev] eqn:E1.
    + destruct (prop_loop _ _ _ _ _ _) as [ns2 ev2|p|] eqn:E2.
      * rewrite main_top_ns. cbn [set_ns s_ns]. eapply keeps_trans; [|eapply loop_keeps, E2].
        eapply pass_keeps in E1. rewrite emits_ns in E1. cbn [set_erec s_ns] in E1. rewrite emits_ns in E1. exact E1.
      * cbn [set_pc s_ns]. rewrite !emits_ns. cbn [set_erec s_ns]. rewrite emits_ns. apply keeps_refl.
      * cbn [set_pc s_ns]. rewrite !emits_ns. cbn [set_erec s_ns]. rewrite emits_ns. apply keeps_refl.
    + cbn [set_pc s_ns]. rewrite !emits_ns. cbn [set_erec s_ns]. rewrite emits_ns. apply keeps_refl.
    + cbn [set_pc s_ns]. rewrite !emits_ns. cbn [set_erec s_ns]. rewrite emits_ns. apply keeps_refl.
  - cbn [set_pc s_ns]. cbn [set_erec s_ns]. rewrite emits_ns. apply keeps_refl.
Qed.

Lemma keeps_started s n : keeps (s_ns s) (s_ns (set_started s n)).
Proof. apply keeps_upd; cbn; auto. Qed.
Lemma keeps_done s n : keeps (s_ns s) (s_ns (set_done s n)).
Proof. apply keeps_upd; cbn; auto. Qed.
Lemma keeps_failed s n : keeps (s_ns s) (s_ns (set_failed s n)).
Proof. apply keeps_upd; cbn; auto. Qed.

Lemma dispatch_ns c s : s_ns (dispatch c s) = s_ns s.
Proof.
  unfold dispatch. destruct (_ && _); [reflexivity|]. destruct (find_candidate _ _ _ _ _ _ _) as [[n|]|]; try reflexivity.
  - cbv zeta. destruct (s_coros _); reflexivity.
  - destruct (s_coros s); reflexivity.
Qed.

Lemma first_keeps c s ph kept sl rest b s' : run_first c s ph kept sl rest b = Some s' -> keeps (s_ns s) (s_ns s').
Proof.
  unfold run_first. cbv zeta. destruct (inval_eqb _ UNKNOWN).
  { destruct b; [|discriminate]. intros H. injection H as <-. apply keeps_refl. }
  destruct (any_dep_failed _ _ _).
  { destruct b; [|discriminate]. intros H. injection H as <-. unfold complete. cbv zeta. cbn [set_pc set_erec emit s_ns].
    eapply keeps_trans; [|apply keeps_failed]. apply (keeps_done (emit s _)). }
  destruct (inval_eqb _ VALID).
  { destruct b; [|discriminate]. intros H. injection H as <-. unfold complete. cbv zeta. cbn [set_pc set_erec emit s_ns].
    apply (keeps_done (emit s _)). }
  destruct b; [intros H; injection H as <-|destruct (deferred c); [discriminate|intros H; injection H as <-]];
    cbn [set_pc set_fut emit set_used s_ns]; apply (keeps_started (emit s _)).
Qed.

Lemma poll_keeps c s ph kept sl rest rec s' : run_poll c s ph kept sl rest rec = Some s' -> keeps (s_ns s) (s_ns s').
Proof.
  unfold run_poll. destruct (s_fut s _) as [| | | |o].
  - discriminate.
  - intros H; injection H as <-. apply keeps_refl.
  - intros H; injection H as <-. apply keeps_refl.
  - destruct (deferred c); [discriminate|]. intros H; injection H as <-. apply keeps_refl.
  - intros H; injection H as <-. unfold complete. cbv zeta. cbn [set_pc set_erec emit s_ns].
    eapply keeps_trans; [|apply keeps_done]. destruct (negb _); [apply (keeps_failed (set_used (emit s _) _))|apply keeps_refl].
Qed.

Lemma ctl_keeps c s b s' : ctl c s b = Some s' -> keeps (s_ns s) (s_ns s').
Proof.
  unfold ctl. destruct (s_pc s) as [|ph|ph kept rest|e rest|rest| | | |]; try discriminate.
  - destruct rest as [|sl rest].
    + destruct b; [|discriminate]. destruct ph; intros H; injection H as <-; [rewrite dispatch_ns|]; apply keeps_refl.
    + destruct (co_st (sl_coro sl)) as [|rec]; [apply first_keeps|]. destruct b; [apply poll_keeps|discriminate].
  - destruct b; [|discriminate]. destruct rest as [|sl rest]; [intros H; injection H as <-; apply keeps_refl|].
    destruct (destroy_one s sl); [|discriminate]. intros H; injection H as <-. apply keeps_refl.
  - destruct b; [|discriminate]. destruct rest as [|sl rest]; [intros H; injection H as <-; apply keeps_refl|].
    destruct (destroy_one s sl); [|discriminate]. intros H; injection H as <-. apply keeps_refl.
Qed.

Lemma tick_keeps c s s' : tick c s = Some s' -> keeps (s_ns s) (s_ns s').
Proof.
  unfold tick. destruct (s_pc s) as [|ph| | | | | | |]; try discriminate.
  - intros H; injection H as <-. apply start_keeps.
  - destruct ph; intros H; injection H as <-; [rewrite main_top_ns|rewrite drain_top_ns]; apply keeps_refl.
  - intros H; injection H as <-. apply keeps_refl.
  - intros H; injection H as <-. apply keeps_refl.
Qed.

Lemma step_keeps c s l s' : step c s l = Some s' -> keeps (s_ns s) (s_ns s').
Proof.
  destruct l; cbn [step].
  - apply tick_keeps.
  - destruct (s_pc s); try discriminate; intros H; injection H as <-; apply keeps_refl.
  - apply ctl_keeps.
  - apply ctl_keeps.
  - destruct (match s_pc s with Created | Suspended _ => _ | Clean _ _ _ => _ | _ => _ end) as [s1|]; [|discriminate].
    unfold visitor_throws. destruct (cut_at k _); [|discriminate]. intros H; injection H as <-.
    cbn [set_pc s_ns]. rewrite emits_ns. apply keeps_refl.
  - destruct (s_fut s n); try discriminate. intros H; injection H as <-. apply keeps_refl.
  - destruct (s_fut s n); try discriminate. intros H; injection H as <-. apply keeps_refl.
  - intros H; injection H as <-. apply keeps_refl.
Qed.

(** * A node marked as started or done is never executed *)

Lemma find_loop_unmarked (st : nid -> nstate) rec :
  (forall n seen r seen', rec n seen = Some (Some r, seen') -> ns_started (st r) = false /\ ns_done (st r) = false) ->
  forall es self seen r seen', (forall r, self = Some r -> ns_started (st r) = false /\ ns_done (st r) = false) ->
  find_loop rec self es seen = Some (Some r, seen') -> ns_started (st r) = false /\ ns_done (st r) = false.
Proof.
  intros HR. induction es as [|m es IH]; intros self seen r seen' HS H; cbn in H.
  - injection H as -> _. apply HS. reflexivity.
  - destruct (rec m seen) as [[[q|] sn]|] eqn:E; try discriminate; [|eapply IH; eassumption].
    injection H as <- <-. eapply HR, E.
Qed.
Lemma find_node_unmarked d st res used : forall fuel n seen r seen',
  find_node fuel d st res used n seen = Some (Some r, seen') -> ns_started (st r) = false /\ ns_done (st r) = false.
Proof.
  induction fuel as [|fuel IH]; intros n seen r seen' H; cbn in H; [discriminate|].
  destruct (ns_started (st n)) eqn:E1; [discriminate|]. destruct (ns_done (st n)) eqn:E2; [discriminate|].
  destruct (mem n seen); [discriminate|]. cbn in H. eapply find_loop_unmarked in H; [exact H|apply IH|].
  intros q Hq. destruct (negb _ || _); [discriminate|]. injection Hq as <-. auto.
Qed.
Lemma find_candidate_unmarked d st res used fuel : forall nodes seen r,
  find_candidate fuel d st res used nodes seen = Some (Some r) -> ns_started (st r) = false /\ ns_done (st r) = false.
Proof.
  induction nodes as [|n nodes IH]; intros seen r H; cbn in H; [discriminate|].
  destruct (find_node fuel d st res used n seen) as [[[q|] sn]|] eqn:E; try discriminate; [|eapply IH, H].
  injection H as <-. eapply find_node_unmarked, E.
Qed.

Section Marked.
Variables (c : config) (n : nid).
Hypothesis Hin : In n (node_ids (c_dag c)).

Definition not_n (k : coro) : Prop := co_node k <> n.
Definition no_slot (l : list slot) : Prop := forall sl, In sl l -> not_n (sl_coro sl).
Definition no_coro (l : list coro) : Prop := forall k, In k l -> not_n k.
Definition untouched (e : event) : Prop :=
  match e with EBegin m | EBeforeRun _ m => m <> n | _ => True end.

Record marked_inv (s : state) : Prop := {
  m_flag : ns_started (s_ns s n) = true \/ ns_done (s_ns s n) = true;
  m_fut : s_fut s n = FNone;
  m_coros : no_slot (s_coros s);
  m_pc : match s_pc s with
         | Created => s_coros s = []
         | Suspended PMain => In n (s_todo s)
         | Clean PMain kept rest => In n (s_todo s) /\ no_coro kept /\ no_slot rest
         | Suspended PDrain | Clean PDrain _ _ | Finished => False
         | _ => True
         end;
  m_log : forall e, In e (s_log s) -> untouched e }.

Lemma marked_main s : (ns_started (s_ns s n) = true \/ ns_done (s_ns s n) = true) -> s_fut s n = FNone ->
  no_slot (s_coros s) -> In n (s_todo s) -> (forall e, In e (s_log s) -> untouched e) -> marked_inv (main_top s).
Proof.
  intros H1 H2 H3 H4 H5. unfold main_top. destruct (s_todo s) as [|x l] eqn:E; [destruct H4|].
  constructor; cbn; auto.
  - rewrite E. split; [exact H4|]. split; [intros k []|exact H3].
  - intros e [<-|He]; [exact I|auto].
Qed.

Lemma untouched_inval ev e : In e (map inval_to_event ev) -> untouched e.
Proof. intros H. apply in_map_iff in H. destruct H as [x [<- _]]. destruct x; exact I. Qed.

Lemma marked_start s : marked_inv s -> s_pc s = Created -> marked_inv (start c s).
Proof.
  intros M Epc. destruct M as [M1 M2 M3 M4 M5]. rewrite Epc in M4.
  pose proof (start_keeps c s n) as (K1 & K2 & _).
  assert (F : ns_started (s_ns (start c s) n) = true \/ ns_done (s_ns (start c s) n) = true) by (destruct M1; auto).
  clear K1 K2. revert F. unfold start. cbv zeta.
  set (todo := fold_left (fun l m => set_insert m l) (node_ids (c_dag c)) []).
  assert (Ht : In n todo) by (unfold todo; apply fold_insert_In; left; exact Hin).
  set (s0 := set_erec _ _).
  assert (E0 : s_fut s0 = s_fut s /\ s_coros s0 = s_coros s /\ s_todo s0 = todo /\ (forall e, In e (s_log s0) -> untouched e)).
  { subst s0. cbn [set_erec s_fut s_coros s_todo s_log]. rewrite emits_coros, emits_todo, emits_log, emits_fut.
    repeat (split; [reflexivity|]).
    intros e He. apply in_app_iff in He. destruct He as [He|He]; [|auto].
    apply in_rev in He. apply in_map_iff in He. destruct He as [x [<- _]]. exact I. }
  destruct E0 as (E1 & E2 & E3 & E4). clearbody s0.
  assert (G : forall s1 es, s_fut s1 = s_fut s0 -> s_coros s1 = s_coros s0 -> s_todo s1 = todo ->
     (forall e, In e (s_log s1) -> untouched e) -> (forall e, In e es -> untouched e) ->
     s_fut (emits s1 es) = s_fut s0 /\ s_coros (emits s1 es) = s_coros s0 /\ s_todo (emits s1 es) = todo /\
     (forall e, In e (s_log (emits s1 es)) -> untouched e)).
  { intros s1 es G1 G2 G3 G4 G5. rewrite emits_fut, emits_coros, emits_todo, emits_log. repeat (split; [assumption|]).
    intros e He. apply in_app_iff in He. destruct He as [He|He]; [apply in_rev in He; auto|auto]. }
  assert (Stop : forall s1 p, s_fut s1 = s_fut s0 -> s_coros s1 = s_coros s0 -> 
     (forall e, In e (s_log s1) -> untouched e) -> match p with Failed _ | Bad _ => True | _ => False end ->
     (ns_started (s_ns (set_pc s1 p) n) = true \/ ns_done (s_ns (set_pc s1 p) n) = true) -> marked_inv (set_pc s1 p)).
  { intros s1 p G1 G2 G4 Hp F. constructor; cbn [set_pc s_ns s_fut s_coros s_pc s_log]; auto.
    - rewrite G1, E1. exact M2.
    - rewrite G2, E2. exact M3.
    - destruct p; try contradiction; exact I. }
  assert (Hcyc : forall cyc e, In e (map ECycle cyc) -> untouched e).
  { intros cyc e He. apply in_map_iff in He. destruct He as [x [<- _]]. exact I. }
  destruct (has_cycle _ _ _) as [[[|] cyc]|].
  - destruct (G s0 (map ECycle cyc) eq_refl eq_refl E3 E4 (Hcyc cyc)) as (G1 & G2 & G3 & G4).
    intros F. apply Stop; auto; exact I.
  - destruct (G s0 (map ECycle cyc) eq_refl eq_refl E3 E4 (Hcyc cyc)) as (G1 & G2 & G3 & G4).
    set (s1 := emits s0 (map ECycle cyc)) in *. clearbody s1.
    destruct (inval_pass _ _ _ _ _ _) as [ns' prop ev|m ev|m ev].
    + destruct (prop_loop _ _ _ _ _ _) as [ns2 ev2|p|].
      * destruct (G s1 (map inval_to_event ev2) G1 G2 G3 G4 (untouched_inval ev2)) as (I1 & I2 & I3 & I4).
        intros F. rewrite main_top_ns in F. apply marked_main; cbn [set_ns s_ns s_fut s_coros s_todo s_log] in *; auto.
        -- rewrite I1, E1. exact M2.
        -- rewrite I2, E2. exact M3.
        -- rewrite I3. exact Ht.
      * intros F. apply Stop; auto; exact I.
      * intros F. apply Stop; auto; exact I.
    + destruct (G s1 (map inval_to_event ev) G1 G2 G3 G4 (untouched_inval ev)) as (I1 & I2 & I3 & I4).
      intros F. apply Stop; auto; exact I.
    + destruct (G s1 (map inval_to_event ev) G1 G2 G3 G4 (untouched_inval ev)) as (I1 & I2 & I3 & I4).
      intros F. apply Stop; auto; exact I.
  - intros F. apply Stop; auto; exact I.
Qed.

Lemma flag_keeps f g : keeps f g -> (ns_started (f n) = true \/ ns_done (f n) = true) ->
  ns_started (g n) = true \/ ns_done (g n) = true.
Proof. intros K [H|H]; destruct (K n) as (K1 & K2 & _); auto. Qed.

Lemma marked_dispatch s : (ns_started (s_ns s n) = true \/ ns_done (s_ns s n) = true) -> s_fut s n = FNone ->
  no_slot (s_coros s) -> In n (s_todo s) -> (forall e, In e (s_log s) -> untouched e) -> marked_inv (dispatch c s).
Proof.
  intros H1 H2 H3 H4 H5. unfold dispatch. destruct (_ && _); [constructor; cbn; auto|].
  destruct (find_candidate _ _ _ _ _ _ _) as [[m|]|] eqn:E; [| |constructor; cbn; auto].
  - cbv zeta. cbn [s_coros set_coros set_todo].
    assert (Hm : m <> n).
    { intros ->. apply find_candidate_unmarked in E. destruct E as [E1 E2]. destruct H1; congruence. }
    assert (Hs : no_slot (s_coros s ++ [Slot m (Coro m CFresh)])).
    { intros sl Hsl. apply in_app_iff in Hsl. destruct Hsl as [Hsl|[<-|[]]]; [apply H3, Hsl|exact Hm]. }
    destruct (s_coros s ++ [Slot m (Coro m CFresh)]) eqn:Ec; constructor; cbn; auto; rewrite ?Ec; auto.
    apply set_erase_In. auto.
  - destruct (s_coros s) eqn:Ec; constructor; cbn; auto; rewrite ?Ec; auto.
Qed.

Lemma compact_no cs kept : no_coro kept -> no_slot (compact cs kept).
Proof.
  intros H sl Hs. unfold compact in Hs. apply in_map_iff in Hs. destruct Hs as [[a b] [<- Hab]].
  apply in_combine_r in Hab. apply H, Hab.
Qed.

Lemma marked_ctl s b s' : marked_inv s -> ctl c s b = Some s' -> marked_inv s'.
Proof.
  intros M E. pose proof (ctl_keeps c s b s' E) as K. pose proof (flag_keeps _ _ K (m_flag s M)) as F. clear K.
  destruct M as [M1 M2 M3 M4 M5]. unfold ctl in E.
  destruct (s_pc s) as [|ph|ph kept rest|e rest|rest| | | |] eqn:Epc; try discriminate.
  - destruct ph; [|contradiction]. destruct M4 as (T1 & T2 & T3). destruct rest as [|sl rest].
    + destruct b; [|discriminate]. injection E as <-. apply marked_dispatch; cbn; auto. apply compact_no, T2.
    + assert (Hsl : not_n (sl_coro sl)) by (apply T3; left; reflexivity).
      assert (Hrest : no_slot rest) by (intros x Hx; apply T3; right; exact Hx).
      destruct (co_st (sl_coro sl)) as [|rec].
      * unfold run_first in E. cbv zeta in E. set (m := co_node (sl_coro sl)) in *.
        destruct (inval_eqb _ UNKNOWN).
        { destruct b; [|discriminate]. injection E as <-. constructor; cbn; auto. }
        assert (Hb : forall er e, e = EBeforeRun er m -> untouched e) by (intros er e ->; exact Hsl).
        destruct (any_dep_failed _ _ _).
        { destruct b; [|discriminate]. injection E as <-. constructor; cbn in *; auto.
          intros e [<-|[<-|He]]; [exact I|exact Hsl|auto]. }
        destruct (inval_eqb _ VALID).
        { destruct b; [|discriminate]. injection E as <-. constructor; cbn in *; auto.
          intros e [<-|[<-|He]]; [exact I|exact Hsl|auto]. }
        destruct b.
        { injection E as <-. constructor; cbn in *; auto.
          - rewrite upd_other; [exact M2|]. intros H. apply Hsl. symmetry. exact H.
          - split; [exact T1|]. split; [exact T2|]. intros x [<-|Hx]; [exact Hsl|apply Hrest, Hx].
          - intros e [<-|[<-|He]]; [exact I|exact Hsl|auto]. }
        destruct (deferred c); [discriminate|]. injection E as <-. constructor; cbn in *; auto.
        intros e [<-|He]; [exact Hsl|auto].
      * destruct b; [|discriminate]. unfold run_poll in E. set (m := co_node (sl_coro sl)) in *.
        assert (Hk : no_coro (kept ++ [sl_coro sl])).
        { intros k Hk. apply in_app_iff in Hk. destruct Hk as [Hk|[<-|[]]]; [apply T2, Hk|exact Hsl]. }
        destruct (s_fut s m) as [| | | |o]; try discriminate.
        -- injection E as <-. constructor; cbn in *; auto.
           ++ rewrite upd_other; [exact M2|]. intros H. apply Hsl. symmetry. exact H.
           ++ rewrite Epc. auto.
           ++ intros e [<-|He]; [exact Hsl|auto].
        -- injection E as <-. constructor; cbn in *; auto. intros e [<-|He]; [exact I|auto].
        -- destruct (deferred c); [discriminate|]. injection E as <-. constructor; cbn in *; auto. intros e [<-|He]; [exact I|auto].
        -- cbv zeta in E. injection E as <-. destruct (negb _); constructor; cbn in *; auto; intros e [<-|[<-|He]]; try exact I; auto.
  - destruct b; [|discriminate]. destruct rest as [|sl rest]; [injection E as <-; constructor; cbn in *; auto; intros x []|].
    destruct (destroy_one s sl); [|discriminate]. injection E as <-. constructor; cbn in *; auto.
  - destruct b; [|discriminate]. destruct rest as [|sl rest]; [injection E as <-; constructor; cbn in *; auto; [intros x []|]|].
    + intros e [<-|He]; [exact I|auto].
    + destruct (destroy_one s sl); [|discriminate]. injection E as <-. constructor; cbn in *; auto.
Qed.

Lemma marked_tick s s' : marked_inv s -> tick c s = Some s' -> marked_inv s'.
Proof.
  intros M E. unfold tick in E. destruct (s_pc s) as [|ph| | | | | | |] eqn:Epc; try discriminate.
  - injection E as <-. apply marked_start; assumption.
  - pose proof (m_pc s M) as P. rewrite Epc in P. destruct ph; [|contradiction]. injection E as <-.
    destruct M as [M1 M2 M3 M4 M5]. apply marked_main; assumption.
  - pose proof (m_pc s M) as P. rewrite Epc in P. destruct P.
  - injection E as <-. destruct M as [M1 M2 M3 M4 M5]. constructor; cbn; auto.
Qed.

Lemma cut_at_in : forall es k es', cut_at k es = Some es' -> forall e, In e es' -> In e es.
Proof.
  induction es as [|a es IH]; intros k es' H e He; cbn in H; [discriminate|].
  destruct (is_callback a).
  - destruct k as [|k]; [injection H as <-; destruct He as [<-|[]]; left; reflexivity|].
    destruct (cut_at k es) as [x|] eqn:E; [|discriminate]. injection H as <-.
    destruct He as [<-|He]; [left; reflexivity|right; eapply IH; eassumption].
  - destruct (cut_at k es) as [x|] eqn:E; [|discriminate]. injection H as <-.
    destruct He as [<-|He]; [left; reflexivity|right; eapply IH; eassumption].
Qed.

Lemma marked_step s l s' : marked_inv s -> step c s l = Some s' -> marked_inv s'.
Proof.
  intros M E. destruct l; cbn [step] in E.
  - eapply marked_tick; eassumption.
  - destruct M as [M1 M2 M3 M4 M5]. destruct (s_pc s); try discriminate; injection E as <-; constructor; cbn; auto.
  - eapply marked_ctl; eassumption.
  - eapply marked_ctl; eassumption.
  - destruct (match s_pc s with Created | Suspended _ => tick c s | Clean _ _ _ => ctl c s true | _ => None end) as [s1|] eqn:E1; [|discriminate].
    assert (M' : marked_inv s1).
    { destruct (s_pc s); try discriminate; [eapply marked_tick|eapply marked_tick|eapply marked_ctl]; eassumption. }
    unfold visitor_throws in E. destruct (cut_at k _) as [es|] eqn:Ec; [|discriminate]. injection E as <-.
    pose proof (m_log s1 M') as L. destruct M as [M1 M2 M3 M4 M5].
    constructor; cbn [set_pc s_ns s_fut s_coros s_pc s_log]; rewrite ?emits_ns, ?emits_fut, ?emits_coros, ?emits_log; auto.
    intros e He. apply in_app_iff in He. destruct He as [He|He]; [|auto]. apply in_rev in He.
    apply L. eapply cut_at_in in Ec; [|exact He]. apply in_rev in Ec. 
    rewrite <- (firstn_skipn (List.length (s_log s1) - List.length (s_log s)) (s_log s1)). apply in_app_iff. left. exact Ec.
  - destruct (s_fut s n0) eqn:Ef; try discriminate. injection E as <-. destruct M as [M1 M2 M3 M4 M5].
    assert (Hn : n0 <> n) by congruence. constructor; cbn; auto.
    + rewrite upd_other by congruence. exact M2.
    + intros e [<-|He]; [exact Hn|auto].
  - destruct (s_fut s n0) eqn:Ef; try discriminate. injection E as <-. destruct M as [M1 M2 M3 M4 M5].
    assert (Hn : n0 <> n) by congruence. constructor; cbn; auto.
    + rewrite upd_other by congruence. exact M2.
    + intros e [<-|He]; [exact I|auto].
  - injection E as <-. destruct M as [M1 M2 M3 M4 M5]. constructor; cbn; auto.
Qed.

Lemma marked_run : forall ls s s', marked_inv s -> run_labels c s ls = Some s' -> marked_inv s'.
Proof.
  induction ls as [|l ls IH]; intros s s' M E; cbn in E; [injection E as <-; exact M|].
  destruct (step c s l) as [s1|] eqn:E1; [|discriminate]. eapply IH; [|exact E]. eapply marked_step; eassumption.
Qed.
End Marked.

Lemma marked_never : forall c f z ls s n,
  In n (node_ids (c_dag c)) -> ns_started (f n) = true \/ ns_done (f n) = true ->
  run_labels c (init_with f z) ls = Some s ->
  (forall er, result s <> RRecord er) /\ ~ In (EBegin n) (trace s) /\ (forall er, ~ In (EBeforeRun er n) (trace s)).
Proof.
  intros c f z ls s n Hn Hf E.
  assert (M : marked_inv n (init_with f z)).
  { constructor; cbn; auto; [intros sl []|intros e []]. }
  pose proof (marked_run c n Hn ls _ _ M E) as M'. split; [|split].
  - intros er H. unfold result in H. pose proof (m_pc n s M') as P. destruct (s_pc s); try discriminate. exact P.
  - intros H. unfold trace in H. apply in_rev in H. exact (m_log n s M' _ H eq_refl).
  - intros er H. unfold trace in H. apply in_rev in H. exact (m_log n s M' _ H eq_refl).
Qed.

(** * A node marked as failed keeps what requires it from running *)

Section Failing.
Variables (c : config) (n b : nid).
Hypothesis Hreq : requires (c_dag c) b n.

Definition fresh_b (k : coro) : Prop :=
  match co_st k with CFresh => True | CWait rec => co_node k <> b /\ r_node rec <> b end.
Definition depf_b (e : event) : Prop :=
  match e with EBegin m => m <> b | EAfterRun _ rec _ => r_node rec = b -> r_status rec = DEPF | _ => True end.

Record failing_inv (s : state) : Prop := {
  x_flag : ns_failed (s_ns s n) = true;
  x_fut : s_fut s b = FNone;
  x_coros : forall sl, In sl (s_coros s) -> fresh_b (sl_coro sl);
  x_pc : match s_pc s with
         | Clean _ kept rest => (forall k, In k kept -> fresh_b k) /\ (forall sl, In sl rest -> fresh_b (sl_coro sl))
         | _ => True
         end;
  x_log : forall e, In e (s_log s) -> depf_b e }.

Lemma fail_drain s : failing_inv s -> failing_inv (drain_top s).
Proof.
  intros [M1 M2 M3 M4 M5]. unfold drain_top. destruct (s_coros s) eqn:Ec; constructor; cbn; auto; rewrite ?Ec; auto.
  - intros e [<-|He]; [exact I|auto].
  - split; [intros k []|exact M3].
Qed.
Lemma fail_main s : failing_inv s -> failing_inv (main_top s).
Proof.
  intros M. unfold main_top. destruct (s_todo s) eqn:Et; [apply fail_drain, M|]. destruct M as [M1 M2 M3 M4 M5].
  constructor; cbn; auto.
  - split; [intros k []|exact M3].
  - intros e [<-|He]; [exact I|auto].
Qed.

Lemma fail_emits s es : failing_inv s -> (forall e, In e es -> depf_b e) -> failing_inv (emits s es).
Proof.
  intros [M1 M2 M3 M4 M5] H. constructor; rewrite ?emits_ns, ?emits_fut, ?emits_coros, ?emits_pc, ?emits_log; auto.
  intros e He. apply in_app_iff in He. destruct He as [He|He]; [apply in_rev in He|]; auto.
Qed.
Lemma fail_stop s p : failing_inv s -> match p with Clean _ _ _ => False | _ => True end -> failing_inv (set_pc s p).
Proof. intros [M1 M2 M3 M4 M5] H. constructor; cbn; auto. destruct p; auto. contradiction. Qed.
Lemma fail_ns s f : failing_inv s -> ns_failed (f n) = true -> failing_inv (set_ns s f).
Proof. intros [M1 M2 M3 M4 M5] H. constructor; cbn; auto. Qed.

Lemma fail_start s : failing_inv s -> failing_inv (start c s).
Proof.
  intros M. unfold start. cbv zeta.
  set (todo := fold_left (fun l m => set_insert m l) (node_ids (c_dag c)) []).
  set (s0 := set_erec _ _).
  assert (M0 : failing_inv s0).
  { assert (Ma : failing_inv (emits (set_todo s todo) (map EEnque (node_ids (c_dag c))))).
    { apply fail_emits; [destruct M as [M1 M2 M3 M4 M5]; constructor; cbn; auto|].
      intros e He. apply in_map_iff in He. destruct He as [x [<- _]]. exact I. }
    destruct Ma as [M1 M2 M3 M4 M5]. constructor; cbn; auto. }
  clearbody s0.
  assert (Hcyc : forall cyc e, In e (map ECycle cyc) -> depf_b e).
  { intros cyc e He. apply in_map_iff in He. destruct He as [x [<- _]]. exact I. }
  assert (Hiv : forall ev e, In e (map inval_to_event ev) -> depf_b e).
  { intros ev e He. apply in_map_iff in He. destruct He as [x [<- _]]. destruct x; exact I. }
  destruct (has_cycle _ _ _) as [[[|] cyc]|].
  - apply fail_stop; [apply fail_emits; eauto|exact I].
  - assert (M1 : failing_inv (emits s0 (map ECycle cyc))) by (apply fail_emits; eauto).
    set (s1 := emits s0 (map ECycle cyc)) in *. clearbody s1.
    destruct (inval_pass _ _ _ _ _ _) as [ns' prop ev|m ev|m ev] eqn:E1.
    + destruct (prop_loop _ _ _ _ _ _) as [ns2 ev2|p|] eqn:E2.
      * apply fail_main. apply fail_ns; [apply fail_emits; eauto|].
        apply pass_keeps in E1. apply loop_keeps in E2.
        apply (keeps_trans _ _ _ E1 E2 n). apply (x_flag s1 M1).
      * apply fail_stop; auto.
      * apply fail_stop; auto.
    + apply fail_stop; [apply fail_emits; eauto|exact I].
    + apply fail_stop; [apply fail_emits; eauto|exact I].
  - apply fail_stop; auto.
Qed.

Lemma fail_tick s s' : failing_inv s -> tick c s = Some s' -> failing_inv s'.
Proof.
  intros M E. unfold tick in E. destruct (s_pc s) as [|ph| | | | | | |] eqn:Epc; try discriminate.
  - injection E as <-. apply fail_start, M.
  - destruct ph; injection E as <-; [apply fail_main, M|apply fail_drain, M].
  - injection E as <-. apply fail_stop; auto.
  - injection E as <-. apply fail_stop; auto.
Qed.

Lemma fail_dispatch s : failing_inv s -> failing_inv (dispatch c s).
Proof.
  intros M. unfold dispatch. destruct (_ && _); [apply fail_stop; auto|].
  destruct (find_candidate _ _ _ _ _ _ _) as [[m|]|] eqn:E; [| |apply fail_stop; auto].
  - cbv zeta. cbn [s_coros set_coros set_todo]. destruct M as [M1 M2 M3 M4 M5].
    assert (Hs : forall sl, In sl (s_coros s ++ [Slot m (Coro m CFresh)]) -> fresh_b (sl_coro sl)).
    { intros sl Hsl. apply in_app_iff in Hsl. destruct Hsl as [Hsl|[<-|[]]]; [apply M3, Hsl|exact I]. }
    destruct (s_coros s ++ [Slot m (Coro m CFresh)]) eqn:Ec; constructor; cbn; auto; rewrite ?Ec; auto.
  - destruct (s_coros s) eqn:Ec; apply fail_stop; auto.
Qed.

Lemma fail_ctl s ok s' : failing_inv s -> ctl c s ok = Some s' -> failing_inv s'.
Proof.
  intros M E. pose proof (ctl_keeps c s ok s' E n) as (_ & _ & F). specialize (F (x_flag s M)).
  unfold ctl in E.
  destruct (s_pc s) as [|ph|ph kept rest|e rest|rest| | | |] eqn:Epc; try discriminate.
  - pose proof (x_pc s M) as P. rewrite Epc in P. destruct P as [T2 T3]. destruct rest as [|sl rest].
    + destruct ok; [|discriminate].
      assert (M' : failing_inv (set_coros s (compact (s_coros s) kept))).
      { destruct M as [M1 M2 M3 M4 M5]. constructor; cbn; auto.
        intros sl Hs. unfold compact in Hs. apply in_map_iff in Hs. destruct Hs as [[a x] [<- Hab]].
        apply in_combine_r in Hab. apply T2, Hab. }
      destruct ph; injection E as <-; [apply fail_dispatch, M'|apply fail_stop; auto].
    + assert (Hsl : fresh_b (sl_coro sl)) by (apply T3; left; reflexivity).
      assert (Hrest : forall x, In x rest -> fresh_b (sl_coro x)) by (intros x Hx; apply T3; right; exact Hx).
      destruct (co_st (sl_coro sl)) as [|rec] eqn:Est.
      * unfold run_first in E. cbv zeta in E. set (m := co_node (sl_coro sl)) in *.
        assert (Hm : m = b -> any_dep_failed (c_dag c) (s_ns s) m = true).
        { intros ->. apply any_dep_failed_spec. exists n. split; [exact Hreq|apply M]. }
        destruct M as [M1 M2 M3 M4 M5].
        destruct (inval_eqb _ UNKNOWN).
        { destruct ok; [|discriminate]. injection E as <-. constructor; cbn; auto. }
        change (s_ns (emit s (EBeforeRun (s_erec s) m))) with (s_ns s) in E.
        destruct (any_dep_failed _ _ _) eqn:Ed.
        { destruct ok; [|discriminate]. injection E as <-. constructor; cbn in *; auto.
          intros e [<-|[<-|He]]; [intros _; reflexivity|exact I|auto]. }
        assert (Hne : m <> b) by (intros H; specialize (Hm H); congruence).
        destruct (inval_eqb _ VALID).
        { destruct ok; [|discriminate]. injection E as <-. constructor; cbn in *; auto.
          intros e [<-|[<-|He]]; [intros H; destruct (Hne H)|exact I|auto]. }
        destruct ok.
        { injection E as <-. constructor; cbn in *; auto.
          - rewrite upd_other by congruence. exact M2.
          - split; [exact T2|]. intros x [<-|Hx]; [split; exact Hne|apply Hrest, Hx].
          - intros e [<-|[<-|He]]; [exact I|exact I|auto]. }
        destruct (deferred c); [discriminate|]. injection E as <-. constructor; cbn in *; auto.
        intros e [<-|He]; [exact I|auto].
      * destruct ok; [|discriminate]. unfold run_poll in E. set (m := co_node (sl_coro sl)) in *.
        pose proof Hsl as Hsl'. unfold fresh_b in Hsl'. rewrite Est in Hsl'. destruct Hsl' as [Hm Hr]. fold m in Hm.
        assert (Hk : forall k, In k (kept ++ [sl_coro sl]) -> fresh_b k).
        { intros k Hk. apply in_app_iff in Hk. destruct Hk as [Hk|[<-|[]]]; [apply T2, Hk|exact Hsl]. }
        destruct M as [M1 M2 M3 M4 M5].
        destruct (s_fut s m) as [| | | |o]; try discriminate.
        -- injection E as <-. constructor; cbn in *; auto.
           ++ rewrite upd_other by congruence. exact M2.
           ++ intros e [<-|He]; [exact Hm|auto].
        -- injection E as <-. constructor; cbn in *; auto. intros e [<-|He]; [exact I|auto].
        -- destruct (deferred c); [discriminate|]. injection E as <-. constructor; cbn in *; auto. intros e [<-|He]; [exact I|auto].
        -- cbv zeta in E. injection E as <-.
           destruct (negb _); constructor; cbn in *; auto; (intros e [<-|[<-|He]]; [intros H; destruct (Hr H)|exact I|auto]).
  - destruct M as [M1 M2 M3 M4 M5].
    destruct ok; [|discriminate]. destruct rest as [|sl rest]; [injection E as <-; constructor; cbn in *; auto; intros x []|].
    destruct (destroy_one s sl); [|discriminate]. injection E as <-. constructor; cbn in *; auto.
  - destruct M as [M1 M2 M3 M4 M5].
    destruct ok; [|discriminate]. destruct rest as [|sl rest]; [injection E as <-; constructor; cbn in *; auto; [intros x []|]|].
    + intros e [<-|He]; [exact I|auto].
    + destruct (destroy_one s sl); [|discriminate]. injection E as <-. constructor; cbn in *; auto.
Qed.

Lemma fail_step s l s' : failing_inv s -> step c s l = Some s' -> failing_inv s'.
Proof.
  intros M E. destruct l; cbn [step] in E.
  - eapply fail_tick; eassumption.
  - destruct (s_pc s); try discriminate; injection E as <-; apply fail_stop; auto.
  - eapply fail_ctl; eassumption.
  - eapply fail_ctl; eassumption.
  - destruct (match s_pc s with Created | Suspended _ => tick c s | Clean _ _ _ => ctl c s true | _ => None end) as [s1|] eqn:E1; [|discriminate].
    assert (M' : failing_inv s1).
    { destruct (s_pc s); try discriminate; [eapply fail_tick|eapply fail_tick|eapply fail_ctl]; eassumption. }
    unfold visitor_throws in E. destruct (cut_at k _) as [es|] eqn:Ec; [|discriminate]. injection E as <-.
    pose proof (x_log s1 M') as L. apply fail_stop; [|exact I]. apply fail_emits; [exact M|].
    intros e He. apply L. eapply cut_at_in in Ec; [|exact He]. apply in_rev in Ec.
    rewrite <- (firstn_skipn (List.length (s_log s1) - List.length (s_log s)) (s_log s1)). apply in_app_iff. left. exact Ec.
  - destruct (s_fut s n0) eqn:Ef; try discriminate. injection E as <-. destruct M as [M1 M2 M3 M4 M5].
    assert (Hn : n0 <> b) by congruence. constructor; cbn; auto.
    + rewrite upd_other by congruence. exact M2.
    + intros e [<-|He]; [exact Hn|auto].
  - destruct (s_fut s n0) eqn:Ef; try discriminate. injection E as <-. destruct M as [M1 M2 M3 M4 M5].
    assert (Hn : n0 <> b) by congruence. constructor; cbn; auto.
    + rewrite upd_other by congruence. exact M2.
    + intros e [<-|He]; [exact I|auto].
  - injection E as <-. destruct M as [M1 M2 M3 M4 M5]. constructor; cbn; auto.
Qed.

Lemma fail_run : forall ls s s', failing_inv s -> run_labels c s ls = Some s' -> failing_inv s'.
Proof.
  induction ls as [|l ls IH]; intros s s' M E; cbn in E; [injection E as <-; exact M|].
  destruct (step c s l) as [s1|] eqn:E1; [|discriminate]. eapply IH; [|exact E]. eapply fail_step; eassumption.
Qed.
End Failing.

Lemma records_in tr r : In r (records tr) -> exists er x, In (EAfterRun er r x) tr.
Proof.
  induction tr as [|e t IH]; cbn [records]; intros H; [destruct H|].
  destruct e; try (apply IH in H; destruct H as (er' & x' & Hx); exists er', x'; right; exact Hx).
  destruct H as [->|H]; [do 2 eexists; left; reflexivity|].
  destruct (IH H) as (er' & x' & Hx); exists er', x'; right; exact Hx.
Qed.

Lemma failed_before : forall c f z ls s n b,
  requires (c_dag c) b n -> ns_failed (f n) = true ->
  run_labels c (init_with f z) ls = Some s ->
  ~ In (EBegin b) (trace s) /\
  (forall r, In r (records (trace s)) -> r_node r = b -> r_status r = DEPF).
Proof.
  intros c f z ls s n b Hr Hf E.
  assert (M : failing_inv n b (init_with f z)).
  { constructor; cbn; auto; [intros sl []|intros e []]. }
  pose proof (fail_run c n b Hr ls _ _ M E) as M'. split.
  - intros H. unfold trace in H. apply in_rev in H. exact (x_log n b s M' _ H eq_refl).
  - intros r H Hb. apply records_in in H. destruct H as (er & x & H). unfold trace in H. apply in_rev in H.
    exact (x_log n b s M' _ H Hb).
Qed.
