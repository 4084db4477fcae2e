(** What the default visitor writes besides its status lines (C81). *)
From Coq Require Import Lia String Ascii.
From Verif Require Import Model.Common Model.Records Model.Jobs Model.TaskSet Model.Dag
     Model.Sched Model.Exec Model.Text Model.Process Model.Format Model.Visitor
     Spec.Graph Spec.Trace Spec.Report Spec.Messages
     Proofs.Sets Proofs.SchedFacts Proofs.InvalFacts Proofs.TraceFacts Proofs.ExecInv Proofs.LogFacts
     Proofs.ExecStep Proofs.ExecCtl Proofs.ExecProps2 Proofs.ExecProps3 Proofs.StepCases Proofs.Ticks Proofs.Asked
     Proofs.VisitorFacts.
Open Scope string_scope.
Open Scope nat_scope.
Open Scope list_scope.

(** * The order of the announcements *)

Lemma announced_app a b : announced (a ++ b) = announced a ++ announced b.
Proof. apply flat_map_app. Qed.

Lemma announced_none a : (forall n, ~ In (EEnque n) a) -> announced a = [].
Proof.
  induction a as [|e a IH]; intros H; [reflexivity|]. unfold announced in *. cbn [flat_map].
  rewrite IH by (intros n Hn; apply (H n); right; exact Hn).
  destruct e; try reflexivity. destruct (H n). left. reflexivity.
Qed.

Lemma announced_ids ns : announced (map EEnque ns) = ns.
Proof. unfold announced. induction ns as [|n ns IH]; [reflexivity|]. cbn. rewrite IH. reflexivity. Qed.

Definition in_order (c : config) (s : state) : Prop :=
  exists rest, node_ids (c_dag c) = announced (rev (s_log s)) ++ rest.

Lemma announced_start c s : wf_dag (c_dag c) -> Inv c s -> s_pc s = Created ->
  announced (rev (s_log (start c s))) = node_ids (c_dag c).
Proof.
  intros Hwf HI Epc. destruct (start_spec c Hwf s HI Epc) as [R _].
  assert (H2 : forall pre, announced (rev (log2 c pre)) = node_ids (c_dag c)).
  { intros pre. unfold log2, log1. rewrite rev_app_distr, !rev_involutive, announced_app, announced_ids.
    rewrite (announced_none (map inval_to_event _)); [apply app_nil_r|].
    intros n H. apply in_map_iff in H. destruct H as (i & E & _). destruct i; discriminate. }
  assert (H3 : forall evd todo, announced (rev (log3 c evd todo)) = node_ids (c_dag c)).
  { intros evd todo. unfold log3. rewrite rev_app_distr, rev_involutive, announced_app, H2.
    rewrite (announced_none (map inval_to_event _)); [apply app_nil_r|].
    intros n H. apply in_map_iff in H. destruct H as (i & E & _). destruct i; discriminate. }
  inversion R as [? ? cyc L1 L2 L3|? ? m pre post L2 L1 L3 L4 L5 L6 L7|? ? m pre post L2 L1 L3 L4 L5 L6 L7 L8
                 |? ? s1 evd todo E1 T L1 L2 L3 L4 L5 L6 L7 L8 L9]; subst.
  - rewrite L1. cbn [rev]. unfold log1. rewrite rev_involutive, announced_app, announced_ids. apply app_nil_r.
  - rewrite L1. apply H2.
  - rewrite L1. cbn [rev]. rewrite announced_app, H2. apply app_nil_r.
  - rewrite E1. unfold main_top, drain_top. rewrite L5.
    destruct (s_todo s1); cbn [set_pc emit s_log rev]; rewrite L1, announced_app, H3; apply app_nil_r.
Qed.

Lemma in_order_step c s l s' : wf_dag (c_dag c) -> Inv c s -> step c s l = Some s' ->
  in_order c s -> in_order c s'.
Proof.
  intros Hwf HI E H.
  pose proof (step_inv c Hwf s l s' HI E) as HI'.
  pose proof (k_log _ _ _ _ (i_core _ _ HI')) as L'.
  destruct (step_log c s l s' Hwf HI E) as [new En].
  assert (G : (forall n, ~ In (EEnque n) new) -> in_order c s').
  { intros N. destruct H as [rest Hr]. exists rest. rewrite En, rev_app_distr, announced_app.
    rewrite (announced_none (rev new)), app_nil_r; [exact Hr|]. intros n Hn. apply in_rev in Hn. exact (N n Hn). }
  pose proof (i_pc _ _ HI) as P. unfold pc_inv in P.
  assert (Gact : asked c (s_log s) -> in_order c s').
  { intros A. apply G. intros n Hi. rewrite En in L'. apply in_split in Hi. destruct Hi as [a [b ->]].
    rewrite <- app_assoc in L'. cbn in L'. apply log_ok_app in L'. destruct L' as [[He _] _]. cbn [ev_cond] in He.
    destruct He as (Hn & He & _). apply He. apply in_app_iff. right. apply (A n Hn). }
  assert (Gin : inactive (s_pc s) -> in_order c s').
  { intros Hp. apply G. intros n Hi. destruct (inactive_step c s l s' Hp E) as [_ [new' [En' Hl]]].
    rewrite En in En'. apply app_inv_tail in En'. subst new'. exact (Hl _ Hi). }
  destruct (s_pc s) as [|ph|ph kept rest|e rest|rest| | | |] eqn:Epc;
    try (apply Gin; rewrite ?Epc; exact I).
  - destruct P as (_ & _ & _ & Pc & Pf & _ & Pl).
    destruct l; cbn [step] in E.
    + unfold tick in E. rewrite Epc in E. inversion E; subst. exists []. rewrite app_nil_r.
      symmetry. apply announced_start; assumption.
    + rewrite Epc in E. inversion E; subst. exact H.
    + unfold ctl in E. rewrite Epc in E. discriminate.
    + unfold ctl in E. rewrite Epc in E. discriminate.
    + rewrite Epc in E. destruct (tick c s) as [s1|] eqn:E1; [|discriminate].
      unfold visitor_throws in E. unfold tick in E1. rewrite Epc in E1. inversion E1; subst s1.
      destruct (new_start c Hwf s HI Epc) as [cb [nb V]].
      assert (Enew : rev (firstn (List.length (s_log (start c s)) - List.length (s_log s)) (s_log (start c s))) = cb ++ nb).
      { rewrite (v_log _ _ _ _ _ V), app_length.
        replace (List.length (rev (cb ++ nb)) + List.length (s_log s) - List.length (s_log s))
          with (List.length (rev (cb ++ nb)) + 0) by lia.
        rewrite firstn_app_2. cbn. rewrite app_nil_r, rev_involutive. reflexivity. }
      rewrite Enew in E. destruct (cut_at k (cb ++ nb)) as [es|] eqn:Ecut; [|discriminate].
      destruct (cut_at_prefix cb nb (v_cb _ _ _ _ _ V) (v_nb _ _ _ _ _ V) k es Ecut) as [es' [e [post [Ees [Ecb He]]]]].
      pose proof (announced_start c s Hwf HI Epc) as Ha.
      rewrite (v_log _ _ _ _ _ V), Pl, app_nil_r, rev_involutive, Ecb, !announced_app in Ha.
      exists (announced post ++ announced nb). inversion E; subst s'. rewrite emits_eq. cbn. rewrite Pl, app_nil_r, rev_involutive.
      rewrite <- Ha, <- app_assoc. reflexivity.
    + rewrite Pf in E. discriminate.
    + rewrite Pf in E. discriminate.
    + inversion E; subst. exact H.
  - apply Gact. destruct P as [A _]. apply (a_start _ _ _ _ _ _ _ _ A).
  - apply Gact. destruct P as [A _]. apply (a_start _ _ _ _ _ _ _ _ A).
Qed.

Lemma in_order_reach c z s : wf_dag (c_dag c) -> reachable c z s -> in_order c s.
Proof.
  intros Hwf [ls E].
  assert (G : forall ls s0 s1, Inv c s0 -> in_order c s0 -> run_labels c s0 ls = Some s1 -> in_order c s1).
  { clear - Hwf. induction ls as [|l ls IH]; intros s0 s1 HI H E; [inversion E; subst; exact H|].
    cbn in E. destruct (step c s0 l) as [s2|] eqn:E1; [|discriminate].
    eapply IH; [eapply step_inv; eassumption|eapply in_order_step; eassumption|exact E]. }
  eapply G; [apply inv_init| |exact E]. exists (node_ids (c_dag c)). reflexivity.
Qed.

Lemma all_announced c z s : wf_dag (c_dag c) -> reachable c z s ->
  (forall n, In n (node_ids (c_dag c)) -> In (EEnque n) (trace s)) -> announced (trace s) = node_ids (c_dag c).
Proof.
  intros Hwf HR H. destruct (in_order_reach c z s Hwf HR) as [rest E]. fold (trace s) in E.
  destruct rest as [|n rest]; [rewrite E, app_nil_r; reflexivity|]. exfalso.
  assert (Hn : In n (node_ids (c_dag c))) by (rewrite E; apply in_app_iff; right; left; reflexivity).
  assert (Hi : In n (announced (trace s))) by (apply in_flat_map; exists (EEnque n); split; [apply H, Hn|left; reflexivity]).
  destruct Hwf as [Hnd _]. rewrite E in Hnd. apply NoDup_remove_2 in Hnd. apply Hnd. apply in_app_iff. auto.
Qed.

(** * What is written, by the events *)

(** The items on stderr and the notes that an event leads to. *)
Definition err_items (c : config) (e : event) : list item :=
  match e with
  | EEnque n => if node_has_job c n then [] else [PNoJob (node_name (c_dag c) n)]
  | ECycle l => [PCycle (map (node_name (c_dag c)) l)]
  | _ => []
  end.
Definition note_items (c : config) (e : event) : list item :=
  match e with
  | EInval n INVALID log => [PInval (node_name (c_dag c) n) log]
  | EDepInval n m => [PDepInval (node_name (c_dag c) n) (node_name (c_dag c) m)]
  | ERunLog n log => [PRunLog (node_name (c_dag c) n) log]
  | _ => []
  end.

Lemma look_name c n x : look_dag c n = Some x ->
  vn_name x = node_name (c_dag c) n /\ vn_job x = node_has_job c n.
Proof.
  unfold look_dag, node_name, node_has_job, node_task.
  destruct (lookup_node (d_nodes (c_dag c)) n); [|discriminate]. intros H. inversion H; subst. cbn. auto.
Qed.

Lemma name_cycle c l :
  map (fun n => match look_dag c n with Some x => vn_name x | None => "" end) l = map (node_name (c_dag c)) l.
Proof.
  apply map_ext. intros n. unfold look_dag, node_name. destruct (lookup_node (d_nodes (c_dag c)) n); reflexivity.
Qed.

Lemma filter_none {A} (f : A -> bool) l : Forall (fun i => f i = false) l -> filter f l = [].
Proof. induction 1 as [|i l Hi _ IH]; [reflexivity|]. cbn. rewrite Hi. exact IH. Qed.

Lemma visit_items c v e v' out : visit (look_dag c) (c_task c) v e = VOk v' out ->
  v_verbose v' = v_verbose v /\
  filter on_stderr out = err_items c e /\
  filter is_note out = if v_verbose v then note_items c e else [].
Proof.
  intros H. destruct e; cbn [visit] in H; unfold with_node in H;
    try (inversion H; subst; cbn; rewrite ?name_cycle; destruct (v_verbose v'); cbn; auto; fail).
  - destruct (look_dag c n) as [x|] eqn:E; [|discriminate]. destruct (look_name c n x E) as [En Ej].
    inversion H; subst. cbn. rewrite Ej, En. destruct (v_verbose v'), (node_has_job c n); cbn; auto.
  - destruct (look_dag c n) as [x|] eqn:E; [|discriminate]. destruct (look_name c n x E) as [En Ej].
    inversion H; subst. cbn. rewrite En. destruct (v_verbose v'), v0; cbn; auto.
  - destruct (look_dag c n) as [x|] eqn:E; [|discriminate]. destruct (look_name c n x E) as [En Ej].
    destruct (look_dag c m) as [y|] eqn:E'; [|discriminate]. destruct (look_name c m y E') as [En' Ej'].
    inversion H; subst. cbn. rewrite En, En'. destruct (v_verbose v'); cbn; auto.
  - destruct (look_dag c n) as [x|] eqn:E; [|discriminate].
    destruct (negb (vn_hidden x) || v_verbose v); inversion H; subst; cbn; destruct (v_verbose _); auto.
  - destruct (look_dag c n) as [x|] eqn:E; [|discriminate]. destruct (look_name c n x E) as [En Ej].
    inversion H; subst. cbn. rewrite En. destruct (v_verbose v'); cbn; auto.
  - assert (G : forall o1 o2 o3 : list item, 
        Forall (fun i => on_stderr i = false /\ is_note i = false) (o1 ++ o2 ++ o3) ->
        filter on_stderr ((o1 ++ o2) ++ o3) = [] /\ filter is_note ((o1 ++ o2) ++ o3) = []).
    { intros o1 o2 o3 F. rewrite <- app_assoc. split; apply filter_none; eapply Forall_impl; try exact F; intros i Hi; apply Hi. }
    assert (F1 : forall b : bool, Forall (fun i => on_stderr i = false /\ is_note i = false) (if b then [PEnd er r] else []))
      by (intros []; repeat constructor).
    assert (F2 : forall b : bool, Forall (fun i => on_stderr i = false /\ is_note i = false) (if b then [PNested (r_output r)] else []))
      by (intros []; repeat constructor).
    destruct (set_erase n (v_queued v)) as [|m q] eqn:Eq.
    + inversion H; subst. cbn [v_verbose]. split; [reflexivity|].
      match goal with |- context [filter _ (?a ++ ?b)] => destruct (G a b []) as [G1 G2] end.
      { rewrite app_nil_r. apply Forall_app. split; [apply F1|apply F2]. }
      rewrite app_nil_r in G1, G2. rewrite G1, G2. destruct (v_verbose v); auto.
    + destruct (look_dag c m) as [y|] eqn:Em; [|discriminate]. inversion H; subst. cbn [v_verbose]. split; [reflexivity|].
      match goal with |- context [filter _ ((?a ++ ?b) ++ ?d)] => destruct (G a b d) as [G1 G2] end.
      { apply Forall_app. split; [apply F1|]. apply Forall_app. split; [apply F2|]. repeat constructor. }
      rewrite G1, G2. destruct (v_verbose v); auto.
  - inversion H; subst. cbn. destruct (v_verbose v); auto.
Qed.

Lemma watch_items c : forall tr v v' out, watch_exec c v tr = VOk v' out ->
  filter on_stderr out = flat_map (err_items c) tr /\
  filter is_note out = if v_verbose v then flat_map (note_items c) tr else [].
Proof.
  unfold watch_exec. induction tr as [|e tr IH]; intros v v' out H; cbn [watch] in H.
  - inversion H; subst. cbn. destruct (v_verbose v'); auto.
  - destruct (visit (look_dag c) (c_task c) v e) as [v1 o1|] eqn:E1; [|discriminate].
    destruct (watch (look_dag c) (c_task c) v1 tr) as [v2 o2|] eqn:E2; [|discriminate]. inversion H; subst.
    destruct (visit_items c v e v1 o1 E1) as (Ev & H1 & H2). destruct (IH v1 v' o2 E2) as [H3 H4].
    rewrite !filter_app, H1, H2, H3, H4, Ev. cbn. destruct (v_verbose v); auto.
Qed.

(** * The texts *)

Lemma sassoc a b d : ((a ++ b) ++ d = a ++ b ++ d)%string.
Proof. induction a as [|x a IH]; [reflexivity|]. cbn. rewrite IH. reflexivity. Qed.

Lemma fold_cycle names : forall acc,
  fold_left (fun os n => os ++ String (ascii_of_nat 9) n ++ newline)%string names acc
  = (acc ++ concat_text (map (fun n => tab ++ n ++ nl) names))%string.
Proof.
  induction names as [|n names IH]; intros acc.
  - cbn. induction acc as [|x acc IHa]; [reflexivity|]. cbn. rewrite <- IHa. reflexivity.
  - cbn [fold_left map concat_text]. rewrite IH. rewrite sassoc. reflexivity.
Qed.

Definition err_due (c : config) (e : event) : list string :=
  match e with
  | EEnque n => if node_has_job c n then [] else [no_job_text c n]
  | ECycle l => [cycle_text c l]
  | _ => []
  end.

Lemma err_items_text c now e : map (render now) (err_items c e) = map Some (err_due c e).
Proof.
  destruct e; try reflexivity; cbn [err_items err_due].
  - destruct (node_has_job c n); reflexivity.
  - cbn [map render]. rewrite fold_cycle, map_map. unfold cycle_text. rewrite sassoc. reflexivity.
Qed.
Lemma note_items_text c now e : map (render now) (note_items c e) = map Some (note_due c e).
Proof. destruct e as [| |n v t| | | | | | | | | | | |]; try reflexivity. destruct v; reflexivity. Qed.

Lemma map_flat_map {A B C} (f : B -> C) (g : A -> list B) l : map f (flat_map g l) = flat_map (fun x => map f (g x)) l.
Proof. induction l as [|x l IH]; [reflexivity|]. cbn. rewrite map_app, IH. reflexivity. Qed.

Section Run.
Variables (c : config) (z : Z) (s : state) (verbose : bool) (v : vis) (out : list item) (now : string).
Hypothesis Hwf : wf_dag (c_dag c).
Hypothesis HR : reachable c z s.
Hypothesis HW : watch_exec c (print_visitor verbose) (trace s) = VOk v out.

Lemma filter_same {A} (f g : A -> bool) l : (forall x, f x = g x) -> filter f l = filter g l.
Proof. intros H. induction l as [|x l IH]; [reflexivity|]. cbn. rewrite H, IH. reflexivity. Qed.

Lemma err_pieces : pieces true now out = map Some (flat_map (err_due c) (trace s)).
Proof.
  unfold pieces. rewrite (filter_same _ on_stderr) by (intros x; destruct (on_stderr x); reflexivity).
  rewrite (proj1 (watch_items c _ _ _ _ HW)), !map_flat_map.
  apply flat_map_ext. intros e. apply err_items_text.
Qed.

Lemma note_pieces : notes now out = if verbose then map Some (flat_map (note_due c) (trace s)) else [].
Proof.
  unfold notes. rewrite (proj2 (watch_items c _ _ _ _ HW)). cbn [print_visitor v_verbose].
  destruct verbose; [|reflexivity]. rewrite !map_flat_map. apply flat_map_ext. intros e. apply note_items_text.
Qed.

Lemma enque_in n : In (EEnque n) (trace s) -> In n (node_ids (c_dag c)).
Proof.
  intros H. apply in_split in H. destruct H as (a & b & E). destruct (trace_at c z s Hwf HR _ _ _ E) as [[He _] _].
  cbn [ev_cond] in He. apply He.
Qed.

(** Whatever is on stderr is true. *)
Lemma err_true p : In p (pieces true now out) ->
  (exists n, In n (node_ids (c_dag c)) /\ node_has_job c n = false /\ p = Some (no_job_text c n)) \/
  (exists l, is_cycle (c_dag c) l /\ p = Some (cycle_text c l)).
Proof.
  rewrite err_pieces, in_map_iff. intros (t & <- & H). apply in_flat_map in H. destruct H as (e & He & H).
  destruct e; try destruct H.
  - cbn in H. destruct (node_has_job c n) eqn:Ej; [destruct H|]. destruct H as [<-|[]]. left. exists n.
    split; [apply enque_in, He|auto].
  - subst t. right. exists ns. split; [|reflexivity]. apply in_split in He. destruct He as (a & b & E).
    destruct (trace_at c z s Hwf HR _ _ _ E) as [[He _] _]. apply He.
  - destruct H.
Qed.

Lemma flat_announced tr : (forall l, ~ In (ECycle l) tr) ->
  flat_map (err_due c) tr = map (no_job_text c) (filter (fun n => negb (node_has_job c n)) (announced tr)).
Proof.
  induction tr as [|e tr IH]; intros H; [reflexivity|]. cbn [flat_map announced].
  rewrite IH by (intros l Hl; apply (H l); right; exact Hl). fold (announced tr).
  destruct e; cbn [err_due app]; try reflexivity.
  - cbn [filter]. destruct (node_has_job c n); reflexivity.
  - destruct (H ns). left. reflexivity.
Qed.

Lemma err_finished er : result s = RRecord er -> pieces true now out = [].
Proof.
  intros Hr. rewrite err_pieces.
  assert (Hj : forall n, In n (node_ids (c_dag c)) -> node_has_job c n = true).
  { intros n Hn. pose proof (ask_all c z s er n Hwf HR Hr Hn) as Ha. apply in_split in Ha.
    destruct Ha as (a & b & E). destruct (trace_at c z s Hwf HR _ _ _ E) as [[He _] _]. cbn [ev_cond] in He.
    apply He. }
  rewrite flat_announced.
  - replace (filter _ _) with (@nil nid); [reflexivity|]. symmetry. apply filter_none. apply Forall_forall.
    intros n Hn. apply in_flat_map in Hn. destruct Hn as (e & He & Hn). destruct e; try destruct Hn; subst.
    + rewrite Hj; [reflexivity|apply enque_in, He]. 
    + contradiction.
  - intros l Hl. apply in_split in Hl. destruct Hl as (a & b & E).
    destruct (trace_at c z s Hwf HR _ _ _ E) as [[He _] _]. cbn [ev_cond] in He.
    destruct (cycle_never_runs c z s Hwf HR) as [_ N]; [|exact (N er Hr)].
    destruct He as [He _]. eapply is_cycle_has; exact He.
Qed.

Lemma err_cycle : result s = RThrow ExcCycle ->
  exists l, is_cycle (c_dag c) l /\
    pieces true now out = map (fun n => Some (no_job_text c n)) (without_job c) ++ [Some (cycle_text c l)].
Proof.
  intros Hr. destruct (cycle_result_reported c z s Hwf HR Hr) as (pre & l & E & Hc). exists l. split; [exact Hc|].
  destruct (trace_at c z s Hwf HR _ _ _ E) as [[He _] _]. cbn [ev_cond] in He. destruct He as (_ & F & A).
  assert (Ea : announced (trace s) = node_ids (c_dag c)).
  { apply (all_announced c z s Hwf HR). intros n Hn. rewrite E. apply in_app_iff. left. apply in_rev, A, Hn. }
  rewrite E, announced_app in Ea. cbn in Ea. rewrite app_nil_r in Ea.
  rewrite err_pieces, E, flat_map_app, map_app. cbn [flat_map err_due app map]. f_equal.
  rewrite flat_announced, Ea, map_map; [reflexivity|].
  intros l' Hl. rewrite Forall_forall in F. specialize (F (ECycle l')). rewrite <- in_rev in F. specialize (F Hl). discriminate.
Qed.

Lemma inval_in n t : In n (node_ids (c_dag c)) -> c_inval c n = IvRet true t ->
  (exists er, result s = RRecord er) -> In (EInval n INVALID t) (trace s).
Proof.
  intros Hn Hi [er Hr]. pose proof (ask_all c z s er n Hwf HR Hr Hn) as Ha. apply in_split in Ha.
  destruct Ha as (a & b & E). pose proof (ask_followed c z s a n b Hwf HR E) as F. rewrite Hi in F.
  destruct F as [b' ->]. rewrite E. apply in_app_iff. right. right. left. reflexivity.
Qed.

Lemma note_in e t : verbose = true -> In e (trace s) -> In t (note_due c e) -> In (Some t) (pieces false now out).
Proof.
  intros Hv He Ht.
  assert (G : In (Some t) (notes now out)).
  { rewrite note_pieces, Hv. apply in_map. apply in_flat_map. eauto. }
  unfold notes in G. apply in_map_iff in G. destruct G as (i & Ei & Hi). apply filter_In in Hi.
  unfold pieces. apply in_map_iff. exists i. split; [exact Ei|]. apply filter_In. split; [apply Hi|].
  destruct i; try reflexivity; destruct Hi; discriminate.
Qed.

Lemma reasons_written n t : verbose = true -> (exists er, result s = RRecord er) ->
  In n (node_ids (c_dag c)) -> c_inval c n = IvRet true t -> In (Some (reason_text c n t)) (pieces false now out).
Proof. intros Hv Hr Hn Hi. eapply note_in; [exact Hv|apply inval_in; eassumption|left; reflexivity]. Qed.

Lemma run_logs_written r o : verbose = true -> In r (records (trace s)) ->
  r_status r = OK \/ r_status r = FAIL -> In (EEnd (r_node r) o) (trace s) ->
  In (Some (run_log_text c (r_node r) (job_log o))) (pieces false now out).
Proof.
  intros Hv Hr Hs Ho. rewrite <- recs_trace in Hr.
  pose proof (r_log c z s Hwf HR) as L.
  destruct (rec_at c _ _ L Hr) as (l1 & er & x & l2 & E & He & _). cbn [ev_cond] in He.
  destruct He as (_ & _ & _ & _ & _ & Hok & _). unfold rec_ok in Hok.
  assert (G : exists o', In (EEnd (r_node r) o') (s_log s) /\ In (ERunLog (r_node r) (rr_log (run_lambda o'))) (s_log s)).
  { destruct Hs as [Hs|Hs]; rewrite Hs in Hok; destruct Hok as (_ & _ & _ & _ & _ & o' & G1 & _ & _ & G2 & _); exists o';
      rewrite E; split; apply in_app_iff; right; right; assumption. }
  destruct G as (o' & G1 & G2).
  assert (Eo : o' = o).
  { eapply end_unique; [exact L|exact G1|]. unfold trace in Ho. apply in_rev in Ho. exact Ho. }
  rewrite Eo in G2.
  eapply note_in; [exact Hv|unfold trace; apply -> in_rev; exact G2|]. left.
  destruct o; reflexivity.
Qed.
End Run.

Lemma null_job_tick : forall c z s0 s verbose v out now,
  wf_dag (c_dag c) -> acyclic (c_dag c) -> reachable c z s0 -> s_pc s0 = Created -> step c s0 LTick = Some s ->
  without_job c <> [] -> watch_exec c (print_visitor verbose) (trace s) = VOk v out ->
  ((exists n, In n (without_job c) /\ s_pc s = Bad (BadNullJob n)) \/ exists n, result s = RThrow (ExcInval n)) /\
  pieces true now out = map (fun n => Some (no_job_text c n)) (without_job c).
Proof.
  intros c z s0 s verbose v out now Hwf Hac HR Epc E Hj HW.
  assert (HR' : reachable c z s) by (eapply reachable_step; eassumption).
  cbn in E. unfold tick in E. rewrite Epc in E. inversion E; subst s; clear E.
  pose proof (r_inv c z s0 Hwf HR) as HI.
  pose proof (announced_start c s0 Hwf HI Epc) as Ha. fold (trace (start c s0)) in Ha.
  split.
  - destruct (start_spec c Hwf s0 HI Epc) as [R _].
    inversion R as [? ? cyc L1 L2 L3|? ? m pre post L2 L1 L3 L4 L5 L6 L7|? ? m pre post L2 L1 L3 L4 L5 L6 L7 L8
                 |? ? s1 evd todo E1 T L1 L2 L3 L4 L5 L6 L7 L8 L9]; subst.
    + exfalso. apply Hac. eapply is_cycle_has, L3.
    + left. exists m. split; [|exact L2]. apply filter_In. rewrite L5. split; [|reflexivity].
      apply L4. apply in_app_iff. right; left; reflexivity.
    + right. exists m. unfold result. rewrite L2. reflexivity.
    + exfalso. unfold without_job in Hj. apply Hj. apply filter_none. apply Forall_forall. intros n Hn.
      apply L7 in Hn. destruct (L8 n Hn) as [-> _]. reflexivity.
  - rewrite (err_pieces c (start c s0) verbose v out now HW), (flat_announced c), Ha, map_map; [reflexivity|].
    intros l Hl. apply in_split in Hl. destruct Hl as (a & b & E).
    destruct (trace_at c z _ Hwf HR' _ _ _ E) as [[He _] _]. cbn [ev_cond] in He.
    apply Hac. eapply is_cycle_has, He.
Qed.
