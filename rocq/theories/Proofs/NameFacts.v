(** Names have no influence (C109). *)
From Coq Require Import String Lia Permutation Relations.
From Verif Require Import Model.Common Model.Records Model.Jobs Model.TaskSet Model.Dag Model.Sched Model.Exec Model.ExecSet
     Spec.Graph Spec.Trace Spec.Tasks Spec.Names Proofs.Sets Proofs.TaskFacts Proofs.BuildProps.
Open Scope nat_scope.
Open Scope list_scope.

(** * The searches *)

Lemma same_lookup : forall l1 l2 n, map (fun x => (n_id x, n_task x)) l1 = map (fun x => (n_id x, n_task x)) l2 ->
  option_map n_task (lookup_node l1 n) = option_map n_task (lookup_node l2 n).
Proof.
  induction l1 as [|x l1 IH]; intros [|y l2] n E; try discriminate E; [reflexivity|]. cbn in E. injection E as Ei Et E.
  cbn. rewrite Ei. destruct (n_id y =? n); [cbn; congruence|]. apply IH. exact E.
Qed.

Section Same.
Variables g1 g2 : dag.
Hypothesis E : d_edges g1 = d_edges g2.
Hypothesis N : map (fun x => (n_id x, n_task x)) (d_nodes g1) = map (fun x => (n_id x, n_task x)) (d_nodes g2).

Lemma same_ids : node_ids g1 = node_ids g2.
Proof.
  unfold node_ids. pose proof (f_equal (map fst) N) as H. rewrite !map_map in H. cbn in H. exact H.
Qed.
Lemma same_len : List.length (d_nodes g1) = List.length (d_nodes g2).
Proof. pose proof (f_equal (@List.length _) N) as H. rewrite !map_length in H. exact H. Qed.
Lemma same_task n : node_task g1 n = node_task g2 n.
Proof.
  unfold node_task. pose proof (same_lookup _ _ n N) as H.
  destruct (lookup_node (d_nodes g1) n), (lookup_node (d_nodes g2) n); cbn in H; congruence.
Qed.
Lemma same_after n : after_targets g1 n = after_targets g2 n.
Proof. unfold after_targets, out_edges. rewrite E. reflexivity. Qed.

Lemma same_find_loop r1 r2 self : (forall n seen, r1 n seen = r2 n seen) -> forall es seen,
  find_loop r1 self es seen = find_loop r2 self es seen.
Proof.
  intros H. induction es as [|m es IH]; intros seen; [reflexivity|]. cbn. rewrite H.
  destruct (r2 m seen) as [[[r|] seen']|]; try reflexivity. apply IH.
Qed.
Lemma same_find_node st q1 q2 used : (forall n, q1 n = q2 n) -> forall fuel n seen,
  find_node fuel g1 st q1 used n seen = find_node fuel g2 st q2 used n seen.
Proof.
  intros H. induction fuel as [|f IH]; intros n seen; [reflexivity|]. cbn [find_node]. rewrite same_after, H.
  destruct (_ || _); [reflexivity|]. apply same_find_loop. exact IH.
Qed.
Lemma same_find st q1 q2 used fuel : (forall n, q1 n = q2 n) -> forall ns seen,
  find_candidate fuel g1 st q1 used ns seen = find_candidate fuel g2 st q2 used ns seen.
Proof.
  intros H. induction ns as [|n ns IH]; intros seen; [reflexivity|]. cbn [find_candidate].
  rewrite (same_find_node st q1 q2 used H). destruct (find_node fuel g2 st q2 used n seen) as [[[r|] seen']|]; try reflexivity. apply IH.
Qed.
Lemma same_cycle_loop r1 r2 n : (forall n seen stack, r1 n seen stack = r2 n seen stack) -> forall es seen stack,
  cycle_loop r1 n es seen stack = cycle_loop r2 n es seen stack.
Proof.
  intros H. induction es as [|m es IH]; intros seen stack; [reflexivity|]. cbn. rewrite H.
  destruct (r2 m seen stack) as [[[[[p|] seen'] stack'] ev]|]; try reflexivity. rewrite IH. reflexivity.
Qed.
Lemma same_check : forall fuel n seen stack, check_for_cycle fuel g1 n seen stack = check_for_cycle fuel g2 n seen stack.
Proof.
  induction fuel as [|f IH]; intros n seen stack; [reflexivity|]. cbn [check_for_cycle]. rewrite same_after.
  destruct (mem n seen); [reflexivity|]. apply same_cycle_loop. exact IH.
Qed.
Lemma same_has_cycle fuel ns : has_cycle fuel g1 ns = has_cycle fuel g2 ns.
Proof.
  unfold has_cycle. generalize (@nil nid) at 1 3 as seen. generalize (@nil nid) as stack.
  induction ns as [|n ns IH]; intros stack seen; [reflexivity|]. cbn. rewrite same_check.
  destruct (check_for_cycle fuel g2 n seen stack) as [[[[[p|] seen'] stack'] ev]|]; try reflexivity. rewrite IH. reflexivity.
Qed.
Lemma same_prop : forall fuel st todo seen ev, prop_loop fuel g1 st todo seen ev = prop_loop fuel g2 st todo seen ev.
Proof.
  induction fuel as [|f IH]; intros st todo seen ev; [reflexivity|]. cbn [prop_loop]. unfold in_edges. rewrite E.
  destruct todo as [|p todo]; [reflexivity|]. destruct (negb _); [reflexivity|].
  destruct (prop_edges _ _ _ _ _) as [[st' todo'] ev']. apply IH.
Qed.
Lemma same_failed st n : any_dep_failed g1 st n = any_dep_failed g2 st n.
Proof. unfold any_dep_failed, out_edges. rewrite E. reflexivity. Qed.
End Same.

Lemma same_pass h1 h2 a1 a2 : (forall n, h1 n = h2 n) -> (forall n, a1 n = a2 n) -> forall ns st prop ev,
  inval_pass h1 a1 ns st prop ev = inval_pass h2 a2 ns st prop ev.
Proof.
  intros H A. induction ns as [|n ns IH]; intros st prop ev; [reflexivity|]. cbn. rewrite H, A.
  destruct (negb (h2 n)); [reflexivity|]. destruct (a2 n); [|reflexivity]. apply IH.
Qed.

(** * States *)
Section Rename.
Variable nm : nid -> string.

Definition nm_coro (k : coro) : coro :=
  Coro (co_node k) (match co_st k with CFresh => CFresh | CWait r => CWait (named nm r) end).
Definition nm_slot (sl : slot) : slot := Slot (sl_node sl) (nm_coro (sl_coro sl)).
Definition nm_pc (p : pc) : pc :=
  match p with
  | Clean ph kept rest => Clean ph (map nm_coro kept) (map nm_slot rest)
  | Unwind e rest => Unwind e (map nm_slot rest)
  | Destroying rest => Destroying (map nm_slot rest)
  | p => p
  end.
Definition nm_state (s : state) : state :=
  State (nm_pc (s_pc s)) (s_todo s) (s_ns s) (s_used s) (map nm_slot (s_coros s)) (s_fut s)
        (named_all nm (s_erec s)) (s_clock s) (map (event_named nm) (s_log s)).

Lemma nm_emits es : forall s, nm_state (emits s es) = emits (nm_state s) (map (event_named nm) es).
Proof. unfold emits. induction es as [|e es IH]; intros s; [reflexivity|]. cbn [fold_left map]. rewrite IH. reflexivity. Qed.
Lemma nm_none {A} (f : A -> event) (l : list A) : (forall x, event_named nm (f x) = f x) ->
  map (event_named nm) (map f l) = map f l.
Proof. intros H. rewrite map_map. apply map_ext. exact H. Qed.
Lemma nm_inval (l : list inval_event) : map (event_named nm) (map inval_to_event l) = map inval_to_event l.
Proof. apply nm_none. intros []; reflexivity. Qed.
Lemma nm_set_pc s p : nm_state (set_pc s p) = set_pc (nm_state s) (nm_pc p).
Proof. reflexivity. Qed.
Lemma nm_drain s : nm_state (drain_top s) = drain_top (nm_state s).
Proof. unfold drain_top. destruct s as [p td ns us co fu er cl lg]. cbn. destruct co; reflexivity. Qed.
Lemma nm_main s : nm_state (main_top s) = main_top (nm_state s).
Proof. unfold main_top. cbn [nm_state s_todo]. destruct (s_todo s); [apply nm_drain|reflexivity]. Qed.
Lemma nm_push er r : named_all nm (push er r) = push (named_all nm er) (named nm r).
Proof. unfold push, named_all. cbn. rewrite map_app. reflexivity. Qed.
Lemma nm_complete s ph kept sl rest r :
  nm_state (complete s ph kept sl rest r) = complete (nm_state s) ph (map nm_coro kept) (nm_slot sl) (map nm_slot rest) (named nm r).
Proof.
  unfold complete. rewrite nm_set_pc. cbn [nm_pc]. f_equal.
  unfold set_erec, emit, nm_state. cbn. rewrite <- nm_push. reflexivity.
Qed.
Lemma nm_combine : forall l kept,
  map nm_slot (map (fun p => Slot (fst p) (snd p)) (combine l kept)) =
  map (fun p => Slot (fst p) (snd p)) (combine l (map nm_coro kept)).
Proof. induction l as [|n l IH]; intros [|k kept]; [reflexivity..|]. cbn. rewrite IH. reflexivity. Qed.
Lemma nm_compact cs kept : map nm_slot (compact cs kept) = compact (map nm_slot cs) (map nm_coro kept).
Proof.
  unfold compact. rewrite nm_combine. replace (map sl_node (map nm_slot cs)) with (map sl_node cs); [reflexivity|].
  rewrite map_map. reflexivity.
Qed.
Lemma nm_destroy s sl : destroy_one (nm_state s) (nm_slot sl) = destroy_one s sl.
Proof. unfold destroy_one. destruct sl as [n [m [|r]]]; reflexivity. Qed.
Lemma nm_callback e : is_callback (event_named nm e) = is_callback e.
Proof. destruct e; reflexivity. Qed.
Lemma nm_cut : forall es k, cut_at k (map (event_named nm) es) = option_map (map (event_named nm)) (cut_at k es).
Proof.
  induction es as [|e es IH]; intros k; [reflexivity|]. cbn. rewrite nm_callback.
  destruct (is_callback e); [destruct k as [|k]; [reflexivity|]|]; rewrite IH; destruct (cut_at k es); reflexivity.
Qed.
Lemma nm_throws k s s' : visitor_throws k (nm_state s) (nm_state s') = option_map nm_state (visitor_throws k s s').
Proof.
  unfold visitor_throws. cbn [nm_state s_log]. rewrite !map_length, firstn_map, <- map_rev, nm_cut.
  destruct (cut_at k _) as [es|]; [|reflexivity]. cbn [option_map]. f_equal. rewrite nm_set_pc, nm_emits. f_equal.
  cbn [nm_pc]. f_equal. cbn [nm_state s_pc s_coros]. destruct (s_pc s); try reflexivity. cbn [nm_pc].
  rewrite map_app, !map_map. reflexivity.
Qed.
End Rename.

(** * Steps *)
Section Steps.
Variables c1 c2 : config.
Hypothesis H : only_names c1 c2.
Notation nm := (node_name (c_dag c2)).
Notation R := (nm_state nm).

Let HE : d_edges (c_dag c1) = d_edges (c_dag c2) := proj2 (on_graph _ _ H).
Let HN := proj1 (on_graph _ _ H).

Lemma nm_res n : node_res c1 n = node_res c2 n.
Proof. unfold node_res. rewrite (same_task _ _ HN), (on_task _ _ H). reflexivity. Qed.
Lemma nm_job n : node_has_job c1 n = node_has_job c2 n.
Proof. unfold node_has_job. rewrite (same_task _ _ HN), (on_task _ _ H). reflexivity. Qed.
Lemma nm_fuel : fuel_of c1 = fuel_of c2.
Proof. unfold fuel_of. rewrite (same_len _ _ HN). reflexivity. Qed.
Lemma nm_deferred : deferred c1 = deferred c2.
Proof. unfold deferred. rewrite (on_threads _ _ H). reflexivity. Qed.
Lemma nm_record n now : named nm (new_record c1 n now) = new_record c2 n now.
Proof. unfold new_record, named. cbn. rewrite (same_task _ _ HN). reflexivity. Qed.

Lemma nm_start s : start c2 (R s) = R (start c1 s).
Proof.
  unfold start. rewrite <- (same_ids _ _ HN), <- nm_fuel.
  set (ids := node_ids (c_dag c1)). set (todo := fold_left (fun l n => set_insert n l) ids []). rewrite <- (same_has_cycle _ _ HE).
  set (sa := emits (set_todo (R s) todo) (map EEnque ids)). set (sb := emits (set_todo s todo) (map EEnque ids)).
  assert (Ea : sa = R sb).
  { unfold sb. rewrite nm_emits, nm_none by reflexivity. reflexivity. }
  rewrite Ea. set (ta := set_erec (R sb) _). set (tb := set_erec sb _).
  assert (Eb : ta = R tb) by reflexivity. rewrite Eb.
  destruct (has_cycle _ _ todo) as [[[|] cycles]|]; [| |reflexivity].
  - rewrite nm_set_pc, nm_emits, nm_none by reflexivity. reflexivity.
  - assert (Ec : emits (R tb) (map ECycle cycles) = R (emits tb (map ECycle cycles)))
      by (rewrite nm_emits, nm_none by reflexivity; reflexivity).
    rewrite Ec. set (u := emits tb (map ECycle cycles)).
    rewrite (same_pass (node_has_job c2) (node_has_job c1) (c_inval c2) (c_inval c1));
      [|intros n; symmetry; apply nm_job|intros n; symmetry; apply (on_answer _ _ H)].
    change (s_ns (R u)) with (s_ns u).
    destruct (inval_pass _ _ todo (s_ns u) [] []) as [ns prop ev|n ev|n ev].
    + rewrite <- (same_prop _ _ HE). destruct (prop_loop _ _ ns prop prop ev) as [ns' ev'|p|]; [|reflexivity|reflexivity].
      rewrite nm_main. f_equal.
      change (R (set_ns (emits u (map inval_to_event ev')) ns')) with (set_ns (R (emits u (map inval_to_event ev'))) ns').
      rewrite nm_emits, nm_inval. reflexivity.
    + rewrite nm_set_pc, nm_emits, nm_inval. reflexivity.
    + rewrite nm_set_pc, nm_emits, nm_inval. reflexivity.
Qed.

Lemma nm_wait s :
  match s_coros (R s) with [] => set_pc (R s) (Bad BadAssert332) | _ => set_pc (R s) (Suspended PMain) end =
  R (match s_coros s with [] => set_pc s (Bad BadAssert332) | _ => set_pc s (Suspended PMain) end).
Proof. cbn [nm_state s_coros]. destruct (s_coros s); reflexivity. Qed.

Lemma nm_dispatch s : dispatch c2 (R s) = R (dispatch c1 s).
Proof.
  unfold dispatch. rewrite <- (on_threads _ _ H), <- nm_fuel. cbn [nm_state s_coros]. rewrite map_length.
  destruct (_ && _); [reflexivity|]. cbn [nm_state s_ns s_used s_todo].
  rewrite <- (same_find _ _ HE (s_ns s) (node_res c1) (node_res c2) (s_used s) (fuel_of c1) nm_res).
  destruct (find_candidate _ _ _ _ _ _ _) as [[n|]|]; [| |reflexivity].
  - set (x := set_coros (set_todo (R s) _) _). set (y := set_coros (set_todo s _) _).
    assert (E : x = R y) by (unfold x, y, set_coros, set_todo, nm_state; cbn; rewrite map_app; reflexivity).
    rewrite E. apply nm_wait.
  - apply nm_wait.
Qed.

Lemma nm_first s ph kept sl rest ok :
  run_first c2 (R s) ph (map (nm_coro nm) kept) (nm_slot nm sl) (map (nm_slot nm) rest) ok =
  option_map R (run_first c1 s ph kept sl rest ok).
Proof.
  unfold run_first. cbn [nm_slot sl_coro nm_coro co_node]. set (n := co_node (sl_coro sl)).
  change (s_ns (R s)) with (s_ns s). change (s_clock (R s)) with (s_clock s). rewrite <- nm_record.
  destruct (inval_eqb _ UNKNOWN); [destruct ok; reflexivity|].
  rewrite <- (same_failed _ _ HE). change (s_ns (emit (R s) (EBeforeRun (s_erec (R s)) n))) with (s_ns (emit s (EBeforeRun (s_erec s) n))).
  destruct (any_dep_failed _ _ n).
  { destruct ok; [|reflexivity]. cbn [option_map]. rewrite nm_complete. reflexivity. }
  destruct (inval_eqb _ VALID).
  { destruct ok; [|reflexivity]. cbn [option_map]. rewrite nm_complete. reflexivity. }
  rewrite <- nm_deferred, <- nm_res. destruct ok; [reflexivity|]. destruct (deferred c1); [reflexivity|].
  cbn [option_map]. f_equal. rewrite nm_set_pc. cbn [nm_pc]. rewrite map_app, !map_map. reflexivity.
Qed.

Lemma nm_poll s ph kept sl rest r :
  run_poll c2 (R s) ph (map (nm_coro nm) kept) (nm_slot nm sl) (map (nm_slot nm) rest) (named nm r) =
  option_map R (run_poll c1 s ph kept sl rest r).
Proof.
  unfold run_poll. cbn [nm_slot sl_coro nm_coro co_node]. set (n := co_node (sl_coro sl)).
  change (s_fut (R s)) with (s_fut s). change (s_clock (R s)) with (s_clock s). rewrite <- nm_deferred, <- nm_res.
  assert (EK : map (nm_coro nm) kept ++ [nm_coro nm (sl_coro sl)] = map (nm_coro nm) (kept ++ [sl_coro sl])) by (rewrite map_app; reflexivity).
  fold (nm_coro nm (sl_coro sl)). 
  destruct (s_fut s n) as [| | | |o]; [reflexivity|reflexivity| | |].
  - cbn [option_map]. f_equal. rewrite nm_set_pc. cbn [nm_pc]. rewrite <- EK. reflexivity.
  - destruct (deferred c1); [reflexivity|]. cbn [option_map]. f_equal. rewrite nm_set_pc. cbn [nm_pc]. rewrite <- EK. reflexivity.
  - cbn [option_map]. rewrite nm_complete. destruct (negb _); reflexivity.
Qed.

Lemma nm_ctl s ok : ctl c2 (R s) ok = option_map R (ctl c1 s ok).
Proof.
  unfold ctl. change (s_pc (R s)) with (nm_pc nm (s_pc s)).
  destruct (s_pc s) as [|ph|ph kept [|sl rest]|e [|sl rest]|[|sl rest]| |e| |b]; try reflexivity; cbn [nm_pc map].
  - destruct ok; [|reflexivity]. destruct ph; cbn [option_map]; f_equal.
    + rewrite <- nm_dispatch. f_equal. unfold set_coros, nm_state. cbn. rewrite nm_compact. reflexivity.
    + unfold set_coros, set_pc, nm_state. cbn. rewrite nm_compact. reflexivity.
  - cbn [nm_slot sl_coro nm_coro co_st]. destruct (co_st (sl_coro sl)) as [|r] eqn:Ec.
    + apply nm_first.
    + destruct ok; [|reflexivity]. apply nm_poll.
  - destruct ok; reflexivity.
  - destruct ok; [|reflexivity]. rewrite nm_destroy. destruct (destroy_one s sl); reflexivity.
  - destruct ok; reflexivity.
  - destruct ok; [|reflexivity]. rewrite nm_destroy. destruct (destroy_one s sl); reflexivity.
Qed.

Lemma nm_tick s : tick c2 (R s) = option_map R (tick c1 s).
Proof.
  unfold tick. change (s_pc (R s)) with (nm_pc nm (s_pc s)). destruct (s_pc s) as [|[]| | | | | | |]; try reflexivity; cbn [nm_pc option_map].
  - rewrite nm_start. reflexivity.
  - rewrite nm_main. reflexivity.
  - rewrite nm_drain. reflexivity.
Qed.

Lemma nm_step s l : step c2 (R s) l = option_map R (step c1 s l).
Proof.
  destruct l as [| | | |k|n|n o|z]; cbn [step].
  - apply nm_tick.
  - change (s_pc (R s)) with (nm_pc nm (s_pc s)). destruct (s_pc s); reflexivity.
  - apply nm_ctl.
  - apply nm_ctl.
  - change (s_pc (R s)) with (nm_pc nm (s_pc s)).
    destruct (s_pc s); try reflexivity; cbn [nm_pc]; rewrite ?nm_tick, ?nm_ctl;
      match goal with |- context [option_map R ?x] => destruct x end; try reflexivity; cbn [option_map]; apply nm_throws.
  - change (s_fut (R s)) with (s_fut s). destruct (s_fut s n); reflexivity.
  - change (s_fut (R s)) with (s_fut s). destruct (s_fut s n); reflexivity.
  - reflexivity.
Qed.

Lemma nm_run : forall ls s, run_labels c2 (R s) ls = option_map R (run_labels c1 s ls).
Proof.
  induction ls as [|l ls IH]; intros s; [reflexivity|]. cbn [run_labels]. rewrite nm_step.
  destruct (step c1 s l) as [s'|]; [apply IH|reflexivity].
Qed.
End Steps.

Theorem names_only : forall c1 c2 z ls, only_names c1 c2 ->
  match run_labels c1 (init z) ls with
  | Some s1 => exists s2, run_labels c2 (init z) ls = Some s2 /\
      trace s2 = map (event_named (node_name (c_dag c2))) (trace s1) /\
      result s2 = result_named (node_name (c_dag c2)) (result s1) /\ done s2 = done s1
  | None => run_labels c2 (init z) ls = None
  end.
Proof.
  intros c1 c2 z ls H. pose proof (nm_run c1 c2 H ls (init z)) as X.
  change (nm_state (node_name (c_dag c2)) (init z)) with (init z) in X. rewrite X.
  destruct (run_labels c1 (init z) ls) as [s1|]; [|reflexivity]. cbn [option_map]. eexists. split; [reflexivity|].
  split; [unfold trace; cbn [nm_state s_log]; rewrite map_rev; reflexivity|].
  unfold result, done. change (s_pc (nm_state (node_name (c_dag c2)) s1)) with (nm_pc (node_name (c_dag c2)) (s_pc s1)).
  destruct (s_pc s1); split; reflexivity.
Qed.

(** * Graphs made of task sets *)

Definition bsame (b1 b2 : bstate) : Prop := same_but_names (b_dag b1) (b_dag b2) /\ b_index b1 = b_index b2.
Definition brel (r1 r2 : build bstate) : Prop :=
  match r1, r2 with
  | Built b1, Built b2 => bsame b1 b2
  | BuildUB, BuildUB => True
  | BuildFuel, BuildFuel => True
  | _, _ => False
  end.

Lemma same_add_edge g1 g2 a b e : same_but_names g1 g2 -> same_but_names (add_edge g1 a b e) (add_edge g2 a b e).
Proof. intros [N E]. split; cbn; [exact N|congruence]. Qed.
Lemma same_emplace g1 g2 a n1 n2 t : same_but_names g1 g2 -> same_but_names (emplace g1 a n1 t) (emplace g2 a n2 t).
Proof. intros [N E]. split; cbn; [congruence|exact E]. Qed.

Lemma same_deps r1 r2 addr t : (forall d b1 b2, bsame b1 b2 -> brel (r1 d b1) (r2 d b2)) ->
  forall ds b1 b2, bsame b1 b2 -> brel (dfs_deps r1 addr t ds b1) (dfs_deps r2 addr t ds b2).
Proof.
  intros H. induction ds as [|d ds IH]; intros b1 b2 B; [exact B|]. cbn [dfs_deps]. pose proof (H d b1 b2 B) as X.
  destruct (r1 d b1) as [x| |], (r2 d b2) as [y| |]; cbn in X; try destruct X; try exact I.
  apply IH. split; cbn; [|assumption]. do 3 apply same_add_edge. assumption.
Qed.
Lemma same_dfs st tmp1 tmp2 addr : forall fuel t b1 b2, bsame b1 b2 ->
  brel (dfs fuel st tmp1 addr t b1) (dfs fuel st tmp2 addr t b2).
Proof.
  induction fuel as [|f IH]; intros t b1 b2 B; [exact I|]. cbn [dfs]. rewrite <- (proj2 B).
  destruct (mem t (b_index b1)); [exact B|]. destruct (negb (mem t (st_dom st))); [exact I|].
  apply same_deps; [exact IH|]. split; cbn; [apply same_emplace, B|]. rewrite (proj2 B). reflexivity.
Qed.
Lemma same_dfs_all st tmp1 tmp2 addr fuel f1 f2 : forall l1 l2 b1 b2, bsame b1 b2 ->
  map snd (filter (fun x => contains f1 (fst x)) l1) = map snd (filter (fun x => contains f2 (fst x)) l2) ->
  brel (dfs_all fuel st tmp1 addr f1 l1 b1) (dfs_all fuel st tmp2 addr f2 l2 b2).
Proof.
  induction l1 as [|[n1 t1] l1 IH].
  - induction l2 as [|[n2 t2] l2 IH]; intros b1 b2 B E; [exact B|]. cbn in E |- *.
    destruct (contains f2 n2); [discriminate E|]. apply IH; assumption.
  - intros l2 b1 b2 B E. cbn [dfs_all filter fst] in E |- *. destruct (contains f1 n1).
    + cbn [map snd] in E. revert b1 b2 B E. induction l2 as [|[n2 t2] l2 IH2]; intros b1 b2 B E; [discriminate E|].
      cbn [dfs_all filter fst] in E |- *. destruct (contains f2 n2).
      * cbn [map snd] in E. injection E as -> E. pose proof (same_dfs st tmp1 tmp2 addr fuel t2 b1 b2 B) as X.
        destruct (dfs fuel st tmp1 addr t2 b1) as [x| |], (dfs fuel st tmp2 addr t2 b2) as [y| |]; cbn in X; try destruct X; try exact I.
        apply IH; [split; assumption|exact E].
      * apply IH2; assumption.
    + apply IH; assumption.
Qed.
Lemma same_opt index addr t e : forall ds g1 g2, same_but_names g1 g2 ->
  same_but_names (add_opt_edges index addr t e ds g1) (add_opt_edges index addr t e ds g2).
Proof.
  unfold add_opt_edges. induction ds as [|d ds IH]; intros g1 g2 S; [exact S|]. cbn [fold_left].
  apply IH. destruct (mem d index); [apply same_add_edge|]; exact S.
Qed.

Lemma same_insert st ts1 f1 ts2 f2 addr ord1 ord1' ord2 g1 n1 :
  map snd (filter (fun x => contains f1 (fst x)) (ord1 (for_each_task ts1))) =
  map snd (filter (fun x => contains f2 (fst x)) (ord1' (for_each_task ts2))) ->
  insert_set dag0 st ts1 f1 addr ord1 ord2 = Built (g1, n1) ->
  exists g2 n2, insert_set dag0 st ts2 f2 addr ord1' ord2 = Built (g2, n2) /\ same_but_names g1 g2.
Proof.
  intros E B. unfold insert_set in *.
  pose proof (same_dfs_all st (for_each_task ts1) (for_each_task ts2) addr (S (List.length (st_dom st))) f1 f2 _ _
                (BState dag0 [] 0) (BState dag0 [] 0) ltac:(split; [split; reflexivity|reflexivity]) E) as X.
  destruct (dfs_all _ st (for_each_task ts1) addr f1 _ _) as [x| |]; [|discriminate B|discriminate B].
  destruct (dfs_all _ st (for_each_task ts2) addr f2 _ _) as [y| |]; cbn in X; [|destruct X|destruct X].
  injection B as <- <-. eexists. eexists. split; [reflexivity|]. rewrite <- (proj2 X).
  generalize (ord2 (b_index x)) as l. intros l. destruct X as [X _]. revert X. generalize (b_dag x) (b_dag y).
  induction l as [|t l IH]; intros ga gb S; [exact S|]. cbn [fold_left]. apply IH. do 2 apply same_opt. exact S.
Qed.

(** The matching entries in a given order of their tasks. *)
Lemma reorder (m1 m2 : string * tid -> bool) l1 l2 :
  NoDup (map snd l1) -> NoDup (map snd l2) ->
  (forall t, In t (map snd (filter m1 l1)) <-> In t (map snd (filter m2 l2))) ->
  exists l, Permutation l l2 /\ map snd (filter m1 l1) = map snd (filter m2 l).
Proof.
  intros N1 N2 H.
  assert (P : forall m (l : list (string * tid)), NoDup (map snd l) -> NoDup (map snd (filter m l))).
  { intros m l. induction l as [|x l IH]; intros N; [constructor|]. cbn in N. inversion N as [|? ? Nx N']; subst. cbn.
    destruct (m x); [cbn; constructor|]; try apply IH, N'. intros Hin. apply Nx. apply in_map_iff in Hin. destruct Hin as (y & E & Hy).
    apply filter_In in Hy. rewrite <- E. apply in_map, Hy. }
  assert (Q : Permutation (map snd (filter m1 l1)) (map snd (filter m2 l2))) by (apply NoDup_Permutation; auto).
  apply Permutation_map_inv in Q. destruct Q as (b & Eb & Pb).
  exists (b ++ filter (fun x => negb (m2 x)) l2). split.
  - etransitivity; [apply Permutation_app_tail; symmetry; exact Pb|]. clear. induction l2 as [|x l IH]; [constructor|].
    cbn. destruct (m2 x); cbn; [constructor; exact IH|]. symmetry. apply Permutation_cons_app. symmetry. exact IH.
  - rewrite Eb, filter_app. replace (filter m2 (filter (fun x => negb (m2 x)) l2)) with (@nil (string * tid)).
    + rewrite app_nil_r. f_equal. assert (Hb : forall x, In x b -> m2 x = true).
      { intros x Hx. apply (Permutation_in x (Permutation_sym Pb)) in Hx. apply filter_In in Hx. apply Hx. }
      clear - Hb. induction b as [|x b IH]; [reflexivity|]. cbn. rewrite (Hb x) by (left; reflexivity). f_equal.
      apply IH. intros y Hy. apply Hb. right. exact Hy.
    + clear. induction l2 as [|x l IH]; [reflexivity|]. cbn. destruct (m2 x) eqn:E; cbn; [exact IH|]. rewrite E. exact IH.
Qed.

Lemma picked_in ts f t : picked ts f t <-> In t (map snd (filter (fun x => contains f (fst x)) (for_each_task ts))).
Proof.
  split.
  - intros (p & Hp & Hs). apply in_map_iff. exists (full_name p, t). split; [reflexivity|]. apply filter_In. split.
    + apply named_holds. exists p. auto.
    + cbn [fst]. apply contains_iff. exact Hs.
  - intros Hin. apply in_map_iff in Hin. destruct Hin as ((n & u) & <- & Hin). apply filter_In in Hin. destruct Hin as [Hin Hc].
    apply named_holds in Hin. destruct Hin as (p & Hp & ->). exists p. split; [exact Hp|]. apply contains_iff. exact Hc.
Qed.
Lemma picked_selected st ts1 f1 ts2 f2 : (forall t, picked ts1 f1 t <-> picked ts2 f2 t) ->
  forall t, selected st ts1 f1 t <-> selected st ts2 f2 t.
Proof.
  intros H t. split; intros (p & r & Hp & Hs & Hr).
  - destruct (proj1 (H r) (ex_intro _ p (conj Hp Hs))) as (q & Hq & Hs'). exists q, r. auto.
  - destruct (proj2 (H r) (ex_intro _ p (conj Hp Hs))) as (q & Hq & Hs'). exists q, r. auto.
Qed.

Theorem grouped_otherwise : forall st ts1 f1 ts2 f2 iv addr c1,
  execution_of st ts1 f1 iv addr c1 -> ordered ts2 -> owned ts2 ->
  (forall t, picked ts1 f1 t <-> picked ts2 f2 t) ->
  exists c2, execution_of st ts2 f2 iv addr c2 /\ only_names c1 c2.
Proof.
  intros st ts1 f1 ts2 f2 iv addr c1 (threads & ord1 & ord2 & Ho1 & Ho2 & Or1 & Ow1 & Fr & B) Or2 Ow2 H.
  unfold exec_set in B. destruct (insert_set dag0 st ts1 f1 addr ord1 ord2) as [[g1 n1]| |] eqn:I1; [|discriminate B|discriminate B].
  injection B as <-.
  destruct (reorder (fun x => contains f1 (fst x)) (fun x => contains f2 (fst x)) (ord1 (for_each_task ts1)) (for_each_task ts2))
    as (l & Pl & El).
  { apply (Permutation_NoDup (l := map snd (for_each_task ts1))); [apply Permutation_map; symmetry; apply Ho1|].
    exact (visited_NoDup ts1 Or1 Ow1). }
  { exact (visited_NoDup ts2 Or2 Ow2). }
  { intros t. rewrite <- (picked_in ts2 f2 t), <- H, picked_in. split; intros X.
    - apply in_map_iff in X. destruct X as (x & <- & X). apply filter_In in X. apply in_map, filter_In. split; [|apply X].
      apply (Permutation_in x (Ho1 _)). apply X.
    - apply in_map_iff in X. destruct X as (x & <- & X). apply filter_In in X. apply in_map, filter_In. split; [|apply X].
      apply (Permutation_in x (Permutation_sym (Ho1 _))). apply X. }
  assert (Dec : forall a b : list (string * tid), {a = b} + {a <> b}).
  { apply list_eq_dec. intros [a x] [b y]. destruct (string_dec a b) as [->|Na], (Nat.eq_dec x y) as [->|Nx];
      [left; reflexivity|right; congruence..]. }
  set (ord1' := fun m => if Dec m (for_each_task ts2) then l else m).
  assert (Eo : ord1' (for_each_task ts2) = l) by (unfold ord1'; destruct (Dec _ _) as [_|X]; [reflexivity|destruct X; reflexivity]).
  rewrite <- Eo in El.
  destruct (same_insert st ts1 f1 ts2 f2 addr ord1 ord1' ord2 g1 n1 El I1) as (g2 & n2 & I2 & S).
  exists (Config g2 threads (st_get st) (fun n => iv (node_task g2 n))). split.
  - exists threads, ord1', ord2. split.
    { intros m. unfold ord1'. destruct (Dec m (for_each_task ts2)) as [->|_]; [exact Pl|apply Permutation_refl]. }
    split; [exact Ho2|]. split; [exact Or2|]. split; [exact Ow2|]. split.
    + pose proof (picked_selected st ts1 f1 ts2 f2 H) as Sel. destruct Fr as [Fr1 Fr2]. split.
      * intros a b Ha Hb. apply Fr1; apply Sel; assumption.
      * intros a Ha. apply Fr2, Sel, Ha.
    + unfold exec_set. rewrite I2. reflexivity.
  - constructor; cbn; [exact S|reflexivity|reflexivity|]. intros n. rewrite (same_task _ _ (proj1 S)). reflexivity.
Qed.
