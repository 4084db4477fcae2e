(** Two settings of the node flags that differ only in [invalidated] give the same
    executions. *)
From Coq Require Import String Lia.
From Verif Require Import Model.Common Model.Records Model.Dag Model.Sched Model.Exec Model.Preset.
From Verif Require Import Spec.Trace Proofs.Sets Proofs.PresetFacts.
Open Scope nat_scope.
Open Scope list_scope.

Definition same_ns (g h : nid -> nstate) : Prop := forall n, g n = h n.

Lemma same_upd g h n v w : same_ns g h -> v = w -> same_ns (upd g n v) (upd h n w).
Proof. intros H -> m. unfold upd. destruct (m =? n); [reflexivity|apply H]. Qed.

Lemma forallb_same {A} (f g : A -> bool) l : (forall x, f x = g x) -> forallb f l = forallb g l.
Proof. intros H. induction l as [|a l IH]; cbn; [reflexivity|]. rewrite H, IH. reflexivity. Qed.
Lemma existsb_same {A} (f g : A -> bool) l : (forall x, f x = g x) -> existsb f l = existsb g l.
Proof. intros H. induction l as [|a l IH]; cbn; [reflexivity|]. rewrite H, IH. reflexivity. Qed.

Lemma dep_failed_same d g h n : same_ns g h -> any_dep_failed d g n = any_dep_failed d h n.
Proof. intros H. unfold any_dep_failed. apply existsb_same. intros e. rewrite H. reflexivity. Qed.

Lemma find_loop_same r1 r2 self es : (forall m seen, r1 m seen = r2 m seen) -> forall seen,
  find_loop r1 self es seen = find_loop r2 self es seen.
Proof.
  intros H. induction es as [|m es IH]; intros seen; cbn; [reflexivity|]. rewrite H.
  destruct (r2 m seen) as [[[r|] seen']|]; auto.
Qed.
Lemma find_node_same fuel d g h res used : same_ns g h -> forall n seen,
  find_node fuel d g res used n seen = find_node fuel d h res used n seen.
Proof.
  intros H. induction fuel as [|fuel IH]; intros n seen; cbn [find_node]; [reflexivity|].
  rewrite H. destruct (_ || _); [reflexivity|]. cbv zeta.
  assert (E : all_done g (after_targets d n) = all_done h (after_targets d n)).
  { unfold all_done. apply forallb_same. intros m. rewrite H. reflexivity. }
  rewrite E. apply find_loop_same. exact IH.
Qed.
Lemma find_candidate_same fuel d g h res used : same_ns g h -> forall nodes seen,
  find_candidate fuel d g res used nodes seen = find_candidate fuel d h res used nodes seen.
Proof.
  intros H. induction nodes as [|m r IH]; intros seen; cbn [find_candidate]; [reflexivity|].
  rewrite (find_node_same _ _ g h) by exact H.
  destruct (find_node _ _ h _ _ _ _) as [[[x|] seen']|]; auto.
Qed.

Lemma prop_edges_same es seen : forall g h todo ev, same_ns g h ->
  let '(g', t1, e1) := prop_edges es seen g todo ev in
  let '(h', t2, e2) := prop_edges es seen h todo ev in
  same_ns g' h' /\ t1 = t2 /\ e1 = e2.
Proof.
  induction es as [|e r IH]; intros g h todo ev H; cbn [prop_edges]; [auto|].
  destruct (mem _ _); [apply IH, H|]. apply IH. unfold set_inval. apply same_upd; [exact H|]. rewrite H. reflexivity.
Qed.

Definition same_prop (a b : prop_res) : Prop :=
  match a, b with
  | PropOk g e, PropOk h e' => same_ns g h /\ e = e'
  | PropAssert p, PropAssert q => p = q
  | PropFuel, PropFuel => True
  | _, _ => False
  end.
Lemma prop_loop_same fuel d : forall g h todo seen ev, same_ns g h ->
  same_prop (prop_loop fuel d g todo seen ev) (prop_loop fuel d h todo seen ev).
Proof.
  induction fuel as [|fuel IH]; intros g h todo seen ev H; destruct todo as [|p todo]; cbn; auto.
  rewrite H. destruct (negb _); [reflexivity|].
  pose proof (prop_edges_same (filter_edges INVALIDATED_BY (in_edges d p)) (set_insert p seen) g h todo ev H) as P.
  destruct (prop_edges _ _ g _ _) as [[g' t1] e1]. destruct (prop_edges _ _ h _ _) as [[h' t2] e2].
  destruct P as (P & <- & <-). apply IH, P.
Qed.

(** Agreement of the flags the first loop of propagate_invalidation does not write. *)
Definition same_flags (g h : nid -> nstate) : Prop :=
  forall n, ns_started (g n) = ns_started (h n) /\ ns_done (g n) = ns_done (h n) /\ ns_failed (g n) = ns_failed (h n).

Definition same_pass (a b : pass_res) : Prop :=
  match a, b with
  | PassOk g p e, PassOk h q e' => same_ns g h /\ p = q /\ e = e'
  | PassNull n e, PassNull m e' => n = m /\ e = e'
  | PassThrow n e, PassThrow m e' => n = m /\ e = e'
  | _, _ => False
  end.
Lemma pass_same hj ask : forall l g h prop ev, same_flags g h -> (forall n, ~ In n l -> g n = h n) ->
  same_pass (inval_pass hj ask l g prop ev) (inval_pass hj ask l h prop ev).
Proof.
  induction l as [|n l IH]; intros g h prop ev F H; cbn.
  - split; [|auto]. intros m. apply H. intros [].
  - destruct (negb _); [cbn; auto|]. destruct (ask n) as [b log|]; [|cbn; auto].
    destruct (F n) as (F1 & F2 & F3).
    apply IH; unfold set_inval.
    + intros m. unfold upd. destruct (m =? n); [cbn; rewrite F1, F2, F3; auto|apply F].
    + intros m Hm. unfold upd. destruct (m =? n) eqn:E; [rewrite F1, F2, F3; reflexivity|].
      apply Nat.eqb_neq in E. apply H. intros [->|Hl]; [apply E; reflexivity|apply Hm, Hl].
Qed.

(** States equal up to the flags *)
Section Same.
Variable c : config.

Definition flags_rel (s : state) (g : nid -> nstate) : Prop :=
  match s_pc s with
  | Created => same_flags (s_ns s) g /\ (forall n, ~ In n (node_ids (c_dag c)) -> s_ns s n = g n)
  | Suspended _ | Clean _ _ _ => same_ns (s_ns s) g
  | _ => True
  end.

Lemma emits_set es : forall s g, emits (set_ns s g) es = set_ns (emits s es) g.
Proof.
  unfold emits. induction es as [|e es IH]; intros s g; cbn [fold_left]; [reflexivity|].
  change (emit (set_ns s g) e) with (set_ns (emit s e) g). apply IH.
Qed.

Lemma main_same s g : same_ns (s_ns s) g ->
  exists g', main_top (set_ns s g) = set_ns (main_top s) g' /\ flags_rel (main_top s) g'.
Proof.
  intros H. exists g. unfold main_top, drain_top, flags_rel. cbn.
  destruct (s_todo s); [destruct (s_coros s)|]; cbn; auto.
Qed.
Lemma drain_same s g : same_ns (s_ns s) g ->
  exists g', drain_top (set_ns s g) = set_ns (drain_top s) g' /\ flags_rel (drain_top s) g'.
Proof.
  intros H. exists g. unfold drain_top, flags_rel. cbn. destruct (s_coros s); cbn; auto.
Qed.

Lemma start_same s g : s_pc s = Created -> flags_rel s g ->
  exists g', start c (set_ns s g) = set_ns (start c s) g' /\ flags_rel (start c s) g'.
Proof.
  intros Hpc. unfold flags_rel. rewrite Hpc. intros [F O]. unfold start. cbv zeta.
  set (todo := fold_left (fun l m => set_insert m l) (node_ids (c_dag c)) []).
  change (set_todo (set_ns s g) todo) with (set_ns (set_todo s todo) g). rewrite emits_set.
  set (u := emits (set_todo s todo) (map EEnque (node_ids (c_dag c)))).
  change (s_erec (set_ns u g)) with (s_erec u).
  set (r := ExecRecord _ _ _).
  change (set_erec (set_ns u g) r) with (set_ns (set_erec u r) g).
  assert (Hns : s_ns (set_erec u r) = s_ns s) by (unfold u; cbn; rewrite emits_ns; reflexivity).
  set (v := set_erec u r) in *. clearbody v.
  destruct (has_cycle _ _ _) as [[[|] cyc]|].
  - exists g. rewrite emits_set. split; [reflexivity|exact I].
  - rewrite emits_set. change (s_ns (set_ns (emits v (map ECycle cyc)) g)) with g.
    rewrite emits_ns, Hns.
    pose proof (pass_same (node_has_job c) (c_inval c) todo (s_ns s) g [] [] F) as P.
    specialize (P ltac:(intros n Hn; apply O; intros H; apply Hn; unfold todo; apply fold_insert_In; left; exact H)).
    destruct (inval_pass _ _ _ (s_ns s) _ _) as [h prop ev|m ev|m ev]; destruct (inval_pass _ _ _ g _ _) as [h' prop' ev'|m' ev'|m' ev']; cbn in P; try contradiction.
    + destruct P as (P & <- & <-).
      pose proof (prop_loop_same (fuel_of c) (c_dag c) h h' prop prop ev P) as Q.
      destruct (prop_loop _ _ h _ _ _) as [h2 ev2|p|]; destruct (prop_loop _ _ h' _ _ _) as [h2' ev2'|p'|]; cbn in Q; try contradiction.
      * destruct Q as [Q <-]. rewrite emits_set.
        destruct (main_same (set_ns (emits (emits v (map ECycle cyc)) (map inval_to_event ev2)) h2) h2' Q) as (g' & E & R).
        exists g'. split; [exact E|exact R].
      * subst p'. exists g. split; [reflexivity|exact I].
      * exists g. split; [reflexivity|exact I].
    + destruct P as [<- <-]. exists g. rewrite emits_set. split; [reflexivity|exact I].
    + destruct P as [<- <-]. exists g. rewrite emits_set. split; [reflexivity|exact I].
  - exists g. split; [reflexivity|exact I].
Qed.

Lemma tick_same s s' g : flags_rel s g -> tick c s = Some s' ->
  exists g', tick c (set_ns s g) = Some (set_ns s' g') /\ flags_rel s' g'.
Proof.
  intros R E. unfold tick in *. cbn [s_pc set_ns]. destruct (s_pc s) as [|ph| | | | | | |] eqn:Epc; try discriminate.
  - injection E as <-. destruct (start_same s g Epc R) as (g' & E & R'). exists g'. rewrite E. auto.
  - unfold flags_rel in R. rewrite Epc in R. destruct ph; injection E as <-.
    + destruct (main_same s g R) as (g' & E & R'). exists g'. rewrite E. auto.
    + destruct (drain_same s g R) as (g' & E & R'). exists g'. rewrite E. auto.
  - injection E as <-. exists g. split; [reflexivity|exact I].
  - injection E as <-. exists g. split; [reflexivity|exact I].
Qed.

Lemma dispatch_same s g : same_ns (s_ns s) g ->
  exists g', dispatch c (set_ns s g) = set_ns (dispatch c s) g' /\ flags_rel (dispatch c s) g'.
Proof.
  intros H. exists g. unfold dispatch, flags_rel. cbn [s_coros s_ns s_used s_todo set_ns].
  destruct (_ && _); [cbn; auto|].
  rewrite (find_candidate_same _ _ g (s_ns s)) by (intros x; symmetry; apply H).
  destruct (find_candidate _ _ _ _ _ _ _) as [[m|]|]; cbn; auto.
  - destruct (s_coros s ++ _); cbn; auto.
  - destruct (s_coros s); cbn; auto.
Qed.

Lemma ctl_same s ok s' g : flags_rel s g -> ctl c s ok = Some s' ->
  exists g', ctl c (set_ns s g) ok = Some (set_ns s' g') /\ flags_rel s' g'.
Proof.
  intros R E. unfold ctl in *. cbn [s_pc set_ns]. unfold flags_rel in R.
  destruct (s_pc s) as [|ph|ph kept rest|e rest|rest| | | |] eqn:Epc; try discriminate.
  - destruct rest as [|sl rest].
    + destruct ok; [|discriminate].
      change (set_coros (set_ns s g) (compact (s_coros (set_ns s g)) kept)) with (set_ns (set_coros s (compact (s_coros s) kept)) g).
      destruct ph; injection E as <-.
      * destruct (dispatch_same (set_coros s (compact (s_coros s) kept)) g R) as (g' & E & R'). exists g'. rewrite E. auto.
      * exists g. split; [reflexivity|exact R].
    + destruct (co_st (sl_coro sl)) as [|rec].
      * unfold run_first in *. cbv zeta in *. set (m := co_node (sl_coro sl)) in *.
        cbn [s_ns emit set_ns] in *. rewrite <- (R m).
        assert (Ed : any_dep_failed (c_dag c) g m = any_dep_failed (c_dag c) (s_ns s) m)
          by (apply dep_failed_same; intros x; symmetry; apply R).
        destruct (inval_eqb _ UNKNOWN).
        { destruct ok; [|discriminate]. injection E as <-. exists g. split; [reflexivity|exact I]. }
        rewrite Ed. destruct (any_dep_failed _ _ _).
        { destruct ok; [|discriminate]. injection E as <-. eexists. split; [reflexivity|].
          cbn. apply same_upd; [apply same_upd; [exact R|rewrite (R m); reflexivity]|]. unfold upd. rewrite Nat.eqb_refl. cbn. rewrite (R m). reflexivity. }
        destruct (inval_eqb _ VALID).
        { destruct ok; [|discriminate]. injection E as <-. eexists. split; [reflexivity|].
          cbn. apply same_upd; [exact R|rewrite (R m); reflexivity]. }
        destruct ok.
        { injection E as <-. eexists. split; [reflexivity|]. cbn. apply same_upd; [exact R|rewrite (R m); reflexivity]. }
        destruct (deferred c); [discriminate|]. injection E as <-. eexists. split; [reflexivity|exact I].
      * destruct ok; [|discriminate]. unfold run_poll in *. set (m := co_node (sl_coro sl)) in *. cbn [s_fut set_ns].
        destruct (s_fut s m) as [| | | |o]; try discriminate.
        -- injection E as <-. exists g. split; [reflexivity|]. unfold flags_rel. cbn. rewrite Epc. exact R.
        -- injection E as <-. exists g. split; [reflexivity|exact R].
        -- destruct (deferred c); [discriminate|]. injection E as <-. exists g. split; [reflexivity|exact R].
        -- cbv zeta in *. injection E as <-. destruct (negb _).
           ++ eexists. split; [reflexivity|]. cbn. apply same_upd; [apply same_upd; [exact R|rewrite (R m); reflexivity]|]. unfold upd. rewrite Nat.eqb_refl. cbn. rewrite (R m). reflexivity.
           ++ eexists. split; [reflexivity|]. cbn. apply same_upd; [exact R|rewrite (R m); reflexivity].
  - destruct ok; [|discriminate]. destruct rest as [|sl rest]; [injection E as <-; exists g; split; [reflexivity|exact I]|].
    change (destroy_one (set_ns s g) sl) with (destroy_one s sl).
    destruct (destroy_one s sl); [|discriminate]. injection E as <-. exists g. split; [reflexivity|exact I].
  - destruct ok; [|discriminate]. destruct rest as [|sl rest]; [injection E as <-; exists g; split; [reflexivity|exact I]|].
    change (destroy_one (set_ns s g) sl) with (destroy_one s sl).
    destruct (destroy_one s sl); [|discriminate]. injection E as <-. exists g. split; [reflexivity|exact I].
Qed.

Lemma step_same s l s' g : flags_rel s g -> step c s l = Some s' ->
  exists g', step c (set_ns s g) l = Some (set_ns s' g') /\ flags_rel s' g'.
Proof.
  intros R E. destruct l; cbn [step] in *.
  - eapply tick_same; eassumption.
  - cbn [s_pc set_ns s_coros]. destruct (s_pc s); try discriminate; injection E as <-; exists g; (split; [reflexivity|exact I]).
  - eapply ctl_same; eassumption.
  - eapply ctl_same; eassumption.
  - destruct (match s_pc s with Created | Suspended _ => tick c s | Clean _ _ _ => ctl c s true | _ => None end) as [s1|] eqn:E1; [|discriminate].
    assert (H : exists g', match s_pc (set_ns s g) with Created | Suspended _ => tick c (set_ns s g) | Clean _ _ _ => ctl c (set_ns s g) true | _ => None end = Some (set_ns s1 g')).
    { cbn [s_pc set_ns]. destruct (s_pc s) eqn:Epc; try discriminate.
      - destruct (tick_same _ _ _ R E1) as (g' & E' & _); eauto.
      - destruct (tick_same _ _ _ R E1) as (g' & E' & _); eauto.
      - destruct (ctl_same _ _ _ _ R E1) as (g' & E' & _); eauto. }
    destruct H as [g' H]. rewrite H. unfold visitor_throws in *. cbn [s_log set_ns s_pc s_coros].
    destruct (cut_at k _) as [es|]; [|discriminate]. injection E as <-. exists g. rewrite emits_set. split; [reflexivity|exact I].
  - cbn [s_fut set_ns]. destruct (s_fut s n); try discriminate. injection E as <-. exists g. split; [reflexivity|exact R].
  - cbn [s_fut set_ns]. destruct (s_fut s n); try discriminate. injection E as <-. exists g. split; [reflexivity|exact R].
  - injection E as <-. exists g. split; [reflexivity|exact R].
Qed.

Lemma run_same : forall ls s s' g, flags_rel s g -> run_labels c s ls = Some s' ->
  exists g', run_labels c (set_ns s g) ls = Some (set_ns s' g').
Proof.
  induction ls as [|l ls IH]; intros s s' g R E; cbn in *; [injection E as <-; eauto|].
  destruct (step c s l) as [s1|] eqn:E1; [|discriminate].
  destruct (step_same s l s1 g R E1) as (g' & E' & R'). rewrite E'. eapply IH; eassumption.
Qed.
End Same.

Lemma inval_ignored : forall c f z ls s,
  (forall n, ns_started (f n) = false /\ ns_done (f n) = false /\ ns_failed (f n) = false) ->
  (forall n, ~ In n (node_ids (c_dag c)) -> ns_inval (f n) = UNKNOWN) ->
  run_labels c (init_with f z) ls = Some s ->
  exists s', run_labels c (init z) ls = Some s' /\ trace s' = trace s /\ result s' = result s /\ s_pc s' = s_pc s.
Proof.
  intros c f z ls s F O E.
  destruct (run_same c ls (init_with f z) s (fun _ => nstate0)) as [g' E'].
  - unfold flags_rel. cbn. split; [intros n; apply F|]. intros n Hn. destruct (F n) as (F1 & F2 & F3).
    specialize (O n Hn). destruct (f n) as [a b d e]. cbn in *. subst. reflexivity.
  - exact E.
  - exists (set_ns s g'). split; [exact E'|]. repeat split.
Qed.
