(** Executions whose tasks change meanwhile: proofs for C98. *)
From Coq Require Import String Lia Permutation.
From Verif Require Import Model.Common Model.Records Model.Jobs Model.TaskSet Model.Dag
     Model.Sched Model.Exec Model.Changes Spec.Graph Spec.Trace Spec.Changes
     Proofs.Sets Proofs.SchedFacts Proofs.TraceFacts Proofs.ExecInv Proofs.ExecCtl Proofs.ExecProps Proofs.Ticks Proofs.PresetSame Proofs.LogFacts Proofs.ExecProps3.
Open Scope nat_scope.
Open Scope list_scope.

(** ** The searches *)

Lemma find_loop_same_in r1 r2 self es : (forall m seen, In m es -> r1 m seen = r2 m seen) -> forall seen,
  find_loop r1 self es seen = find_loop r2 self es seen.
Proof.
  induction es as [|m es IH]; intros H seen; cbn; [reflexivity|]. rewrite H by (left; reflexivity).
  destruct (r2 m seen) as [[[r|] seen']|]; auto. apply IH. intros; apply H; right; assumption.
Qed.

Section Search.
  Variables (d : dag) (st : nid -> nstate) (res res' : nid -> list rid) (used : list rid).
  Hypothesis Hwf : wf_dag d.
  Hypothesis Hres : forall n, In n (node_ids d) -> ns_done (st n) = false -> res n = res' n.

  Lemma find_node_res fuel : forall n seen, In n (node_ids d) ->
    find_node fuel d st res used n seen = find_node fuel d st res' used n seen.
  Proof.
    induction fuel as [|fuel IH]; intros n seen Hn; cbn [find_node]; [reflexivity|].
    destruct (ns_started (st n) || ns_done (st n) || mem n seen) eqn:E; [reflexivity|]. cbv zeta.
    rewrite (Hres n Hn) by (destruct (ns_done (st n)); [rewrite orb_true_r in E; discriminate|reflexivity]).
    apply find_loop_same_in. intros m seen' Hm. apply IH. apply after_targets_In in Hm. apply (proj2 Hwf) in Hm. exact (proj2 Hm).
  Qed.
  Lemma find_candidate_res fuel : forall nodes seen, (forall n, In n nodes -> In n (node_ids d)) ->
    find_candidate fuel d st res used nodes seen = find_candidate fuel d st res' used nodes seen.
  Proof.
    induction nodes as [|m r IH]; intros seen H; cbn [find_candidate]; [reflexivity|].
    rewrite find_node_res by (apply H; left; reflexivity).
    destruct (find_node _ _ _ res' _ _ _) as [[[x|] seen']|]; auto. apply IH. intros; apply H; right; assumption.
  Qed.
End Search.

Lemma pass_agree hj hj' ask ask' : forall l st prop ev, (forall n, In n l -> hj n = hj' n /\ ask n = ask' n) ->
  inval_pass hj ask l st prop ev = inval_pass hj' ask' l st prop ev.
Proof.
  induction l as [|n l IH]; intros st prop ev H; cbn; [reflexivity|].
  destruct (H n (or_introl eq_refl)) as [-> ->]. destruct (hj' n); [|reflexivity]. cbn.
  destruct (ask' n) as [b log|]; [|reflexivity]. apply IH. intros; apply H; right; assumption.
Qed.

(** ** One step *)

(** What the execution still reads is the same in both. *)
Record agree (c c' : config) (s : state) : Prop := {
  g_dag : c_dag c' = c_dag c;
  g_threads : c_threads c' = c_threads c;
  g_task : forall x, In x (d_nodes (c_dag c)) -> ~ recorded (trace s) (n_id x) -> ~ inactive (s_pc s) ->
    t_has_job (c_task c' (n_task x)) = t_has_job (c_task c (n_task x)) /\
    t_resources (c_task c' (n_task x)) = t_resources (c_task c (n_task x));
  g_inval : s_pc s = Created -> c_inval c' = c_inval c }.

Lemma lookup_in ns n : In n (map n_id ns) -> exists x, lookup_node ns n = Some x /\ In x ns /\ n_id x = n.
Proof.
  induction ns as [|y r IH]; cbn; [tauto|]. intros [E|H].
  - exists y. rewrite (proj2 (Nat.eqb_eq _ _) E). auto.
  - destruct (Nat.eqb_spec (n_id y) n); [eauto 6|]. destruct (IH H) as (x & A & B & C). eauto 6.
Qed.

Section Step.
  Variables c c' : config.
  Hypothesis Hwf : wf_dag (c_dag c).
  Variable s : state.
  Hypothesis HI : Inv c s.
  Hypothesis G : agree c c' s.

  Lemma agree_node n : In n (node_ids (c_dag c)) -> ~ recorded (trace s) n -> ~ inactive (s_pc s) ->
    node_has_job c' n = node_has_job c n /\ node_res c' n = node_res c n.
  Proof.
    intros Hn Hr Ho. unfold node_has_job, node_res, node_task. rewrite (g_dag _ _ _ G).
    destruct (lookup_in _ _ Hn) as (x & -> & Hx & E). subst n.
    destruct (g_task _ _ _ G x Hx Hr Ho) as [-> ->]. auto.
  Qed.

  Lemma fuel_agree : fuel_of c' = fuel_of c.
  Proof. unfold fuel_of. now rewrite (g_dag _ _ _ G). Qed.
  Lemma deferred_agree : deferred c' = deferred c.
  Proof. unfold deferred. now rewrite (g_threads _ _ _ G). Qed.
  Lemma rec_agree n : recorded (trace s) n <-> recorded_l (s_log s) n.
  Proof. unfold recorded, recorded_l. rewrite <- recs_trace. reflexivity. Qed.
  Lemma new_record_agree n z : new_record c' n z = new_record c n z.
  Proof. unfold new_record. now rewrite (g_dag _ _ _ G). Qed.

  Lemma start_agree : s_pc s = Created -> start c' s = start c s.
  Proof.
    intros Epc. pose proof (i_pc _ _ HI) as P. unfold pc_inv in P. rewrite Epc in P. destruct P as (_ & _ & _ & _ & _ & _ & El).
    unfold start. rewrite fuel_agree, (g_dag _ _ _ G). destruct (has_cycle _ _ _) as [[[|] cyc]|]; try reflexivity.
    rewrite (pass_agree (node_has_job c') (node_has_job c) (c_inval c') (c_inval c)); [reflexivity|].
    intros n Hn. split; [|rewrite (g_inval _ _ _ G Epc); reflexivity].
    apply agree_node.
    - apply fold_insert_In in Hn. destruct Hn as [Hn|[]]. exact Hn.
    - rewrite rec_agree, El. intros (r & [] & _).
    - rewrite Epc. cbn. tauto.
  Qed.

  Lemma tick_agree : tick c' s = tick c s.
  Proof. unfold tick. destruct (s_pc s) eqn:E; try reflexivity. now rewrite start_agree. Qed.

  Lemma lv_res k : act c s -> ~ inactive (s_pc s) -> In k (live s) -> node_res c' (co_node k) = node_res c (co_node k).
  Proof.
    intros A Hin Hk. pose proof (in_map co_node _ _ Hk) as Hk'.
    apply agree_node; [|rewrite rec_agree; eapply act_lv_not_recorded; [exact (proj1 Hwf)|exact A|exact Hk']|exact Hin].
    eapply act_where; [exact A|]. auto.
  Qed.

  Lemma dispatch_agree u : act c s -> ~ inactive (s_pc s) -> s_ns u = s_ns s -> s_todo u = s_todo s ->
    dispatch c' u = dispatch c u.
  Proof.
    intros A Hin En Et. unfold dispatch. rewrite (g_threads _ _ _ G), fuel_agree, (g_dag _ _ _ G), En, Et.
    destruct (_ && _); [reflexivity|].
    rewrite (find_candidate_res (c_dag c) (s_ns s) (node_res c') (node_res c) (s_used u) Hwf); [reflexivity| |].
    - intros n Hn Hd. apply agree_node; [exact Hn| |exact Hin]. rewrite rec_agree. intros Hr.
      apply (act_recorded _ _ _ _ _ _ _ _ A) in Hr. apply in_map_iff in Hr. destruct Hr as (r & <- & Hr).
      apply (a_rec _ _ _ _ _ _ _ _ A) in Hr. destruct Hr as [Hr _]. congruence.
    - intros n Hn. eapply act_where; [exact A|]. auto.
  Qed.

  Lemma ctl_agree ok : ctl c' s ok = ctl c s ok.
  Proof.
    unfold ctl. destruct (s_pc s) as [| |ph kept rest| | | | | |] eqn:Epc; try reflexivity.
    pose proof (i_pc _ _ HI) as P. unfold pc_inv in P. rewrite Epc in P. destruct P as (A & _).
    assert (Hin : ~ inactive (s_pc s)) by (rewrite Epc; cbn; tauto).
    destruct rest as [|sl rest].
    - destruct ok; [|reflexivity]. destruct ph; [|reflexivity]. f_equal. apply dispatch_agree; auto.
    - assert (R : node_res c' (co_node (sl_coro sl)) = node_res c (co_node (sl_coro sl))).
      { apply lv_res; [exact A|exact Hin|]. unfold live. rewrite Epc. apply in_app_iff. right. left. reflexivity. }
      destruct (co_st (sl_coro sl)).
      + unfold run_first. rewrite new_record_agree, (g_dag _ _ _ G), R, deferred_agree. reflexivity.
      + unfold run_poll. rewrite R, deferred_agree. reflexivity.
  Qed.

  Lemma step_agree l : step c' s l = step c s l.
  Proof. destruct l; cbn [step]; rewrite ?tick_agree, ?ctl_agree; reflexivity. Qed.
End Step.

(** ** Histories *)

Lemma inactive_stays c s l s' : step c s l = Some s' -> inactive (s_pc s) -> inactive (s_pc s').
Proof.
  intros E H. destruct l; cbn [step] in E.
  - unfold tick in E. destruct (s_pc s) eqn:P; try discriminate; try contradiction; inversion E; subst; exact I.
  - destruct (s_pc s) eqn:P; try discriminate; inversion E; subst; exact I.
  - unfold ctl in E. destruct (s_pc s) as [| | |e rest|rest| | | |] eqn:P; try discriminate; try contradiction;
      (destruct rest; [inversion E; subst; exact I|]); destruct (destroy_one _ _); inversion E; subst; exact I.
  - unfold ctl in E. destruct (s_pc s) eqn:P; try discriminate; contradiction.
  - destruct (s_pc s) eqn:P; try discriminate; contradiction.
  - destruct (s_fut s n); inversion E; subst; exact H.
  - destruct (s_fut s n); inversion E; subst; exact H.
  - inversion E; subst; exact H.
Qed.

Lemma ctl_not_created c s ok s' : ctl c s ok = Some s' -> s_pc s' <> Created.
Proof.
  intros E. unfold ctl in E. destruct (s_pc s) as [| |ph kept rest|e rest|rest| | | |] eqn:P; try discriminate.
  - destruct rest as [|sl rest].
    + destruct ok; [|discriminate]. destruct ph; injection E as <-; [|discriminate].
      unfold dispatch. destruct (_ && _); [discriminate|]. destruct (find_candidate _ _ _ _ _ _ _) as [[n|]|]; [| |discriminate]; cbn.
      * destruct (compact _ _ ++ _); discriminate.
      * destruct (compact _ _); discriminate.
    + destruct (co_st (sl_coro sl)) as [|rec].
      * unfold run_first in E. destruct (inval_eqb _ UNKNOWN); [destruct ok; inversion E; discriminate|].
        destruct (any_dep_failed _ _ _); [destruct ok; inversion E; discriminate|].
        destruct (inval_eqb _ VALID); [destruct ok; inversion E; discriminate|].
        destruct ok; [inversion E; discriminate|]. destruct (deferred c); inversion E; discriminate.
      * destruct ok; [|discriminate]. unfold run_poll in E.
        destruct (s_fut s _); [discriminate|inversion E; subst; cbn; rewrite P; discriminate|inversion E; discriminate| |inversion E; discriminate].
        destruct (deferred c); inversion E; discriminate.
  - destruct ok; [|discriminate]. destruct rest; [inversion E; discriminate|]. destruct (destroy_one _ _); inversion E; discriminate.
  - destruct ok; [|discriminate]. destruct rest; [inversion E; discriminate|]. destruct (destroy_one _ _); inversion E; discriminate.
Qed.
Lemma created_first c s l s' : step c s l = Some s' -> s_pc s' = Created -> s_pc s = Created.
Proof.
  intros E Hc. destruct l as [| | | |k|n|n o|z]; cbn [step] in E.
  - unfold tick in E. destruct (s_pc s) as [|ph| | | | | | |] eqn:P; try discriminate; [reflexivity| | |].
    + destruct ph; inversion E; subst s'; unfold main_top, drain_top in Hc.
      * destruct (s_todo s); [destruct (s_coros s)|]; discriminate.
      * destruct (s_coros s); discriminate.
    + inversion E; subst; discriminate.
    + inversion E; subst; discriminate.
  - destruct (s_pc s); inversion E; subst; discriminate.
  - destruct (ctl_not_created _ _ _ _ E Hc).
  - destruct (ctl_not_created _ _ _ _ E Hc).
  - destruct (match s_pc s with Created | Suspended _ => tick c s | Clean _ _ _ => ctl c s true | _ => None end); [|discriminate].
    unfold visitor_throws in E. destruct (cut_at _ _); inversion E; subst; discriminate.
  - destruct (s_fut s n); inversion E; subst; exact Hc.
  - destruct (s_fut s n); inversion E; subst; exact Hc.
  - inversion E; subst; exact Hc.
Qed.

Lemma agree_step c c' s l s' : wf_dag (c_dag c) -> Inv c s -> step c s l = Some s' -> agree c c' s -> agree c c' s'.
Proof.
  intros Hwf HI E G. constructor; try apply G.
  - intros x Hx Hr Ha. apply (g_task _ _ _ G x Hx).
    + intros (r & Hr1 & Hr2). apply Hr. exists r. split; [|exact Hr2]. rewrite <- recs_trace in *.
      destruct (step_log c s l s' Hwf HI E) as [new ->]. destruct (recs_app new (s_log s)) as [more ->]. apply in_app_iff. auto.
    + intros H. apply Ha. eapply inactive_stays; eassumption.
  - intros H. apply (g_inval _ _ _ G). eapply created_first; eassumption.
Qed.

Lemma over_inactive c s : Inv c s -> done s = true \/ In EDestroyed (trace s) -> inactive (s_pc s).
Proof.
  intros HI [H|H].
  - unfold done in H. destruct (s_pc s); try discriminate; exact I.
  - unfold trace in H. apply in_rev in H. rewrite (i_destr _ _ HI H). exact I.
Qed.

Lemma agree_change c c' s a : Inv c s -> agree c c' s -> harmless c' s a -> agree c (changed c' a) s.
Proof.
  intros HI G H. destruct a as [l|t y|n x]; cbn [changed]; [exact G| |].
  - constructor; cbn; try apply G. intros x Hx Hr Ha. unfold upd. destruct (Nat.eqb_spec (n_task x) t) as [E|E]; [|apply (g_task _ _ _ G x Hx Hr Ha)].
    destruct H as [H|[[H1 H2]|H]].
    + exfalso. apply Hr. apply H; [rewrite (g_dag _ _ _ G); exact Hx|exact E].
    + rewrite H1, H2, <- E. apply (g_task _ _ _ G x Hx Hr Ha).
    + destruct (Ha (over_inactive c s HI H)).
  - constructor; cbn; try apply G. intros Hc. destruct (H Hc).
Qed.

Lemma agree_refl c s : agree c c s.
Proof. constructor; auto. Qed.

Section Histories.
  Variables (c : config) (z : Z).
  Hypothesis Hwf : wf_dag (c_dag c).

  Lemma changing_run : forall acts c' s pre, reachable c z s -> agree c c' s ->
    run_changing c (init z) pre = Some (c', s) -> all_harmless c z (pre ++ acts) ->
    forall r, (exists c'', run_changing c' s acts = Some (c'', r)) <-> run_labels c s (steps_of acts) = Some r.
  Proof.
    induction acts as [|a acts IH]; intros c' s pre HR G E H r.
    - cbn. split; [intros (c'' & E'); inversion E'; reflexivity|intros E'; inversion E'; eauto].
    - assert (HI : Inv c s) by (apply (inv_reachable c Hwf z s HR)).
      assert (Hh : harmless c' s a) by (apply (H pre a acts c' s eq_refl E)).
      assert (H' : all_harmless c z ((pre ++ [a]) ++ acts)) by (rewrite <- app_assoc; exact H).
      assert (E2 : forall c2 s2, run_changing c' s [a] = Some (c2, s2) -> run_changing c (init z) (pre ++ [a]) = Some (c2, s2)).
      { intros c2 s2 E2. clear - E E2. revert E. generalize (init z) as u. revert c.
        induction pre as [|b pre IH]; intros c u E; cbn [app].
        - cbn in E. inversion E; subst. exact E2.
        - destruct b as [l|t y|n x]; cbn [run_changing] in *; [destruct (step c u l); [|discriminate]|..]; apply IH; assumption. }
      destruct a as [l|t y|n x].
      + cbn. rewrite (step_agree c c' Hwf s HI G). destruct (step c s l) as [s1|] eqn:El; [|split; [intros (c'' & E'); discriminate|discriminate]].
        apply (IH c' s1 (pre ++ [Do l])).
        * destruct HR as [ls Hls]. exists (ls ++ [l]). rewrite run_labels_app, Hls. cbn. rewrite El. reflexivity.
        * eapply agree_step; eassumption.
        * apply E2. cbn. rewrite (step_agree c c' Hwf s HI G), El. reflexivity.
        * exact H'.
      + cbn. apply (IH _ s (pre ++ [Assign t y])); [exact HR|apply (agree_change c c' s (Assign t y)); assumption|apply E2; reflexivity|exact H'].
      + cbn. apply (IH _ s (pre ++ [Answer n x])); [exact HR|apply (agree_change c c' s (Answer n x)); assumption|apply E2; reflexivity|exact H'].
  Qed.

  Theorem unaffected acts s : all_harmless c z acts ->
    ((exists c', run_changing c (init z) acts = Some (c', s)) <-> run_labels c (init z) (steps_of acts) = Some s).
  Proof. intros H. apply (changing_run acts c (init z) []); [exists []; reflexivity|apply agree_refl|reflexivity|exact H]. Qed.
End Histories.

(** ** Checking a given history *)

Definition recorded_b (s : state) (n : nid) : bool := existsb (fun r => r_node r =? n) (records (trace s)).
Definition harmless_b (c : config) (s : state) (a : happening) : bool :=
  match a with
  | Do _ => true
  | Assign t y =>
      forallb (fun x => negb (n_task x =? t) || recorded_b s (n_id x)) (d_nodes (c_dag c)) ||
      (Bool.eqb (t_has_job y) (t_has_job (c_task c t)) &&
       if list_eq_dec Nat.eq_dec (t_resources y) (t_resources (c_task c t)) then true else false) ||
      done s
  | Answer _ _ => match s_pc s with Created => false | _ => true end
  end.
Fixpoint all_harmless_b (c : config) (s : state) (acts : list happening) : bool :=
  match acts with
  | [] => true
  | a :: r => harmless_b c s a &&
              match run_changing c s [a] with Some (c', s') => all_harmless_b c' s' r | None => true end
  end.
Lemma harmless_sound c s a : harmless_b c s a = true -> harmless c s a.
Proof.
  destruct a as [l|t y|n x]; cbn.
  - auto.
  - intros H. apply orb_true_iff in H. destruct H as [H|H]; [apply orb_true_iff in H; destruct H as [H|H]|].
    + left. intros x Hx E. rewrite forallb_forall in H. specialize (H x Hx). rewrite (proj2 (Nat.eqb_eq _ _) E) in H. cbn in H.
      apply existsb_exists in H. destruct H as (r & Hr & Er). apply Nat.eqb_eq in Er. exists r. auto.
    + right. left. apply andb_true_iff in H. destruct H as [H1 H2]. apply Bool.eqb_prop in H1. split; [exact H1|].
      destruct (list_eq_dec _ _ _); [assumption|discriminate].
    + auto.
  - destruct (s_pc s); congruence.
Qed.
Lemma run_changing_cons c s a r : run_changing c s (a :: r) =
  match run_changing c s [a] with Some (c', s') => run_changing c' s' r | None => None end.
Proof. destruct a as [l|t y|n x]; cbn; [destruct (step c s l)|..]; reflexivity. Qed.
Lemma all_harmless_sound c z acts : all_harmless_b c (init z) acts = true -> all_harmless c z acts.
Proof.
  unfold all_harmless. generalize (init z) as s0. revert c. induction acts as [|a acts IH]; intros c s0 H p b q c' s E R.
  - destruct p; discriminate.
  - cbn [all_harmless_b] in H. apply andb_true_iff in H. destruct H as [H1 H2]. destruct p as [|a' p].
    + cbn in E, R. inversion E; subst. inversion R; subst. apply harmless_sound. exact H1.
    + cbn in E. inversion E; subst a'. subst acts. rewrite run_changing_cons in R.
      destruct (run_changing c s0 [a]) as [[c1 s1]|]; [|discriminate]. exact (IH c1 s1 H2 p b q c' s eq_refl R).
Qed.
