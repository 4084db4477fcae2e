(** How deep the recursive searches of Model/Cost.v get. *)
From Coq Require Import String Lia.
From Verif Require Import Model.Common Model.TaskSet Model.Dag Model.Sched Model.Exec Model.Cost
     Spec.Graph Spec.Tasks Proofs.Sets Proofs.SchedFacts.
Open Scope nat_scope.
Open Scope list_scope.

(** [h] nested calls: as many as there are elements in some chain that starts at [x]. *)
Definition deep (R : nat -> nat -> Prop) (x h : nat) : Prop := exists r, chain R x r /\ h = S (List.length r).

Lemma deep_one R x : deep R x 1.
Proof. exists []. split; [exact I|reflexivity]. Qed.
Lemma deep_next (R : nat -> nat -> Prop) x y h : R x y -> deep R y h -> deep R x (S h).
Proof. intros H (r & C & ->). exists (y :: r). split; [split; assumption|reflexivity]. Qed.
Lemma deep_max R x a b : deep R x a -> deep R x b -> deep R x (Nat.max a b).
Proof. intros A B. destruct (Nat.max_dec a b) as [-> | ->]; assumption. Qed.
Lemma deep_max0 R x a b : deep R x (S a) -> deep R x (S b) -> deep R x (S (Nat.max a b)).
Proof. rewrite Nat.succ_max_distr. apply deep_max. Qed.

(** * The search for cycles *)
Lemma cycle_deep d : forall fuel n seen stack res k h,
  check_for_cycle_c fuel d n seen stack = Some (res, k, h) -> deep (runs_after d) n h.
Proof.
  induction fuel as [|f IH]; intros n seen stack res k h E; [discriminate|]. cbn [check_for_cycle_c] in E.
  destruct (mem n seen); [destruct (mem n stack); injection E as _ _ <-; apply deep_one|].
  destruct (cycle_loop_c _ n _ _ _) as [[[res' k'] h']|] eqn:EL; [|discriminate]. injection E as _ _ <-.
  assert (Loop : forall es seen stack res k h, incl es (after_targets d n) ->
    cycle_loop_c (check_for_cycle_c f d) n es seen stack = Some (res, k, h) -> deep (runs_after d) n (S h)).
  { clear - IH. induction es as [|m es IHes]; intros seen stack res k h Hi E; cbn [cycle_loop_c] in E.
    - injection E as _ _ <-. apply deep_one.
    - destruct (check_for_cycle_c f d m seen stack) as [[[[[[p s1] s2] ev] k1] h1]|] eqn:E1; [|discriminate].
      assert (D1 : deep (runs_after d) n (S h1)).
      { eapply deep_next; [|eapply IH; exact E1]. apply after_targets_In, Hi. left. reflexivity. }
      destruct p as [p|].
      + destruct (negb (p =? n)); injection E as _ _ <-; exact D1.
      + destruct (cycle_loop_c (check_for_cycle_c f d) n es s1 s2) as [[[[[[r2 s3] s4] ev2] k2] h2]|] eqn:E2; [|discriminate].
        injection E as _ _ <-. apply deep_max0; [exact D1|].
        eapply IHes; [|exact E2]. intros x Hx. apply Hi. right. exact Hx. }
  eapply Loop; [apply incl_refl|exact EL].
Qed.

Lemma has_cycle_deep d fuel : forall nodes seen stack b ev k h,
  has_cycle_loop_c fuel d nodes seen stack = Some (b, ev, k, h) ->
  (nodes = [] /\ h = 0) \/ exists x, In x nodes /\ deep (runs_after d) x h.
Proof.
  induction nodes as [|n nodes IH]; intros seen stack b ev k h E; cbn [has_cycle_loop_c] in E.
  - injection E as _ _ _ <-. auto.
  - right. destruct (check_for_cycle_c fuel d n seen stack) as [[[[[[p s1] s2] ev1] k1] h1]|] eqn:E1; [|discriminate].
    pose proof (cycle_deep d _ _ _ _ _ _ _ E1) as D1.
    destruct p as [p|]; [injection E as _ _ _ <-; exists n; split; [left; reflexivity|exact D1]|].
    destruct (has_cycle_loop_c fuel d nodes s1 s2) as [[[[b2 ev2] k2] h2]|] eqn:E2; [|discriminate]. injection E as _ _ _ <-.
    destruct (IH _ _ _ _ _ _ E2) as [[_ ->]|(x & Hx & D2)].
    + rewrite Nat.max_0_r. exists n. split; [left; reflexivity|exact D1].
    + destruct (Nat.max_dec h1 h2) as [-> | ->]; [exists n; split; [left; reflexivity|exact D1]|].
      exists x. split; [right; exact Hx|exact D2].
Qed.

(** * The search for a task to start *)
Lemma find_deep d st res used : forall fuel n seen r seen' k h,
  find_node_c fuel d st res used n seen = Some (r, seen', k, h) -> deep (runs_after d) n h.
Proof.
  induction fuel as [|f IH]; intros n seen r seen' k h E; [discriminate|]. cbn [find_node_c] in E.
  destruct (ns_started (st n) || ns_done (st n) || mem n seen); [injection E as _ _ _ <-; apply deep_one|].
  destruct (find_loop_c _ _ _ _) as [[[[r1 s1] k1] h1]|] eqn:EL; [|discriminate]. injection E as _ _ _ <-.
  revert EL. generalize (if negb (all_done st (after_targets d n)) || any_resource_used (res n) used then None else Some n).
  intros self EL.
  assert (Loop : forall es seen r seen' k h, incl es (after_targets d n) ->
    find_loop_c (find_node_c f d st res used) self es seen = Some (r, seen', k, h) -> deep (runs_after d) n (S h)).
  { clear - IH. induction es as [|m es IHes]; intros seen r seen' k h Hi E; cbn [find_loop_c] in E.
    - injection E as _ _ _ <-. apply deep_one.
    - destruct (find_node_c f d st res used m seen) as [[[[p s1] k1] h1]|] eqn:E1; [|discriminate].
      assert (D1 : deep (runs_after d) n (S h1)).
      { eapply deep_next; [|eapply IH; exact E1]. apply after_targets_In, Hi. left. reflexivity. }
      destruct p as [p|]; [injection E as _ _ _ <-; exact D1|].
      destruct (find_loop_c (find_node_c f d st res used) self es s1) as [[[[r2 s2] k2] h2]|] eqn:E2; [|discriminate].
      injection E as _ _ _ <-. apply deep_max0; [exact D1|]. eapply IHes; [|exact E2]. intros x Hx. apply Hi. right. exact Hx. }
  eapply Loop; [apply incl_refl|exact EL].
Qed.

Lemma candidate_deep d st res used fuel : forall nodes seen r k h,
  find_candidate_c fuel d st res used nodes seen = Some (r, k, h) ->
  (nodes = [] /\ h = 0) \/ exists x, In x nodes /\ deep (runs_after d) x h.
Proof.
  induction nodes as [|n nodes IH]; intros seen r k h E; cbn [find_candidate_c] in E.
  - injection E as _ _ <-. auto.
  - right. destruct (find_node_c fuel d st res used n seen) as [[[[p s1] k1] h1]|] eqn:E1; [|discriminate].
    pose proof (find_deep d st res used _ _ _ _ _ _ _ E1) as D1.
    destruct p as [p|]; [injection E as _ _ <-; exists n; split; [left; reflexivity|exact D1]|].
    destruct (find_candidate_c fuel d st res used nodes s1) as [[[r2 k2] h2]|] eqn:E2; [|discriminate]. injection E as _ _ <-.
    destruct (IH _ _ _ _ E2) as [[_ ->]|(x & Hx & D2)].
    + rewrite Nat.max_0_r. exists n. split; [left; reflexivity|exact D1].
    + destruct (Nat.max_dec h1 h2) as [-> | ->]; [exists n; split; [left; reflexivity|exact D1]|].
      exists x. split; [right; exact Hx|exact D2].
Qed.

(** * Making the graph *)
Section Dfs.
Variable st : store.
Variable tmp : list (string * tid).
Variable addr : tid -> nid.
Definition needs (a b : tid) : Prop := In b (t_depends_on (st_get st a)).

Lemma dfs_deep : forall fuel t b b' k h, dfs_c fuel st tmp addr t b = Built (b', k, h) -> deep needs t h.
Proof.
  induction fuel as [|f IH]; intros t b b' k h E; [discriminate|]. cbn [dfs_c] in E.
  destruct (mem t (b_index b)); [injection E as _ _ <-; apply deep_one|].
  destruct (negb (mem t (st_dom st))); [discriminate|].
  destruct (dfs_deps_c _ _ _ _ _) as [[[b1 k1] h1]| |] eqn:EL; try discriminate. injection E as _ _ <-.
  assert (Loop : forall ds b b' k h, incl ds (t_depends_on (st_get st t)) ->
    dfs_deps_c (dfs_c f st tmp addr) addr t ds b = Built (b', k, h) -> deep needs t (S h)).
  { clear - IH. induction ds as [|d ds IHds]; intros b b' k h Hi E; cbn [dfs_deps_c] in E.
    - injection E as _ _ <-. apply deep_one.
    - destruct (dfs_c f st tmp addr d b) as [[[b1 k1] h1]| |] eqn:E1; try discriminate.
      destruct (dfs_deps_c (dfs_c f st tmp addr) addr t ds _) as [[[b2 k2] h2]| |] eqn:E2; try discriminate.
      injection E as _ _ <-. apply deep_max0.
      + eapply deep_next; [|eapply IH; exact E1]. apply Hi. left. reflexivity.
      + eapply IHds; [|exact E2]. intros x Hx. apply Hi. right. exact Hx. }
  eapply Loop; [apply incl_refl|exact EL].
Qed.

Lemma dfs_all_deep fuel filt : forall tmp' b b' k h, dfs_all_c fuel st tmp addr filt tmp' b = Built (b', k, h) ->
  h = 0 \/ exists name t, In (name, t) tmp' /\ contains filt name = true /\ deep needs t h.
Proof.
  induction tmp' as [|[name t] tmp' IH]; intros b b' k h E; cbn [dfs_all_c] in E.
  - injection E as _ _ <-. auto.
  - destruct (contains filt name) eqn:Ef.
    + destruct (dfs_c fuel st tmp addr t b) as [[[b1 k1] h1]| |] eqn:E1; try discriminate.
      destruct (dfs_all_c fuel st tmp addr filt tmp' b1) as [[[b2 k2] h2]| |] eqn:E2; try discriminate.
      injection E as _ _ <-. right. pose proof (dfs_deep _ _ _ _ _ _ E1) as D1.
      destruct (IH _ _ _ _ E2) as [->|(name' & t' & H1 & H2 & D2)].
      * rewrite Nat.max_0_r. exists name, t. repeat split; auto. left. reflexivity.
      * destruct (Nat.max_dec h1 h2) as [-> | ->]; [exists name, t; repeat split; auto; left; reflexivity|].
        exists name', t'. repeat split; auto. right. exact H1.
    + destruct (IH _ _ _ _ E) as [->|(name' & t' & H1 & H2 & D2)]; [auto|]. right.
      exists name', t'. repeat split; auto. right. exact H1.
Qed.
End Dfs.

(** * The depth is reached *)
Lemma only_next d x y : (forall m, runs_after d x m <-> m = y) -> exists es, after_targets d x = y :: es.
Proof.
  intros H. destruct (after_targets d x) as [|m es] eqn:E.
  - exfalso. assert (I : In y (after_targets d x)) by (apply after_targets_In, H; reflexivity). rewrite E in I. destruct I.
  - exists es. f_equal. apply H, after_targets_In. rewrite E. left. reflexivity.
Qed.

Lemma cycle_reached d : forall r fuel x seen stack res k h, only_chain d x r -> NoDup (x :: r) ->
  (forall m, In m (x :: r) -> ~ In m seen) ->
  check_for_cycle_c fuel d x seen stack = Some (res, k, h) -> S (List.length r) <= h.
Proof.
  induction r as [|y r IH]; intros fuel x seen stack res k h C N S E; (destruct fuel as [|f]; [discriminate|]); cbn [check_for_cycle_c] in E.
  - destruct (mem x seen); [destruct (mem x stack); injection E as _ _ <-; cbn; lia|].
    destruct (cycle_loop_c _ _ _ _ _) as [[[? ?] h']|]; [|discriminate]. injection E as _ _ <-. cbn. lia.
  - assert (Ex : mem x seen = false) by (apply mem_false; apply S; left; reflexivity). rewrite Ex in E.
    destruct C as [C1 C2]. destruct (only_next d x y C1) as [es Ees]. rewrite Ees in E. cbn [cycle_loop_c] in E.
    inversion N as [|? ? Nx Nr]; subst.
    destruct (check_for_cycle_c f d y (set_insert x seen) (stack ++ [x])) as [[[[[[p s1] s2] ev1] k1] h1]|] eqn:E1; [|discriminate].
    assert (D : Datatypes.S (List.length r) <= h1).
    { eapply IH; [exact C2|exact Nr| |exact E1]. intros m Hm G. apply set_insert_In in G.
      destruct G as [->|G]; [exact (Nx Hm)|]. exact (S m (or_intror Hm) G). }
    destruct p as [p|].
    + destruct (negb (p =? x)); injection E as _ _ <-; cbn [List.length]; lia.
    + destruct (cycle_loop_c (check_for_cycle_c f d) x es s1 s2) as [[[[[[r2 s3] s4] ev2] k2] h2]|]; [|discriminate].
      injection E as _ _ <-. cbn [List.length]. lia.
Qed.

Lemma find_reached d st res used : forall r fuel x seen p seen' k h, only_chain d x r -> NoDup (x :: r) ->
  (forall m, In m (x :: r) -> ~ In m seen) -> (forall m, In m (x :: r) -> ns_started (st m) = false /\ ns_done (st m) = false) ->
  find_node_c fuel d st res used x seen = Some (p, seen', k, h) -> S (List.length r) <= h.
Proof.
  induction r as [|y r IH]; intros fuel x seen p seen' k h C N S F E; (destruct fuel as [|f]; [discriminate|]); cbn [find_node_c] in E.
  - destruct (ns_started (st x) || ns_done (st x) || mem x seen); [injection E as _ _ _ <-; cbn; lia|].
    destruct (find_loop_c _ _ _ _) as [[[[? ?] ?] h']|]; [|discriminate]. injection E as _ _ _ <-. cbn. lia.
  - assert (Ex : mem x seen = false) by (apply mem_false; apply S; left; reflexivity).
    destruct (F x (or_introl eq_refl)) as [F1 F2]. rewrite Ex, F1, F2 in E. cbn [orb] in E.
    destruct C as [C1 C2]. destruct (only_next d x y C1) as [es Ees]. rewrite Ees in E. cbn [find_loop_c] in E.
    inversion N as [|? ? Nx Nr]; subst.
    destruct (find_node_c f d st res used y (set_insert x seen)) as [[[[q s1] k1] h1]|] eqn:E1; [|discriminate].
    assert (D : Datatypes.S (List.length r) <= h1).
    { eapply IH; [exact C2|exact Nr| | |exact E1].
      - intros m Hm G. apply set_insert_In in G. destruct G as [->|G]; [exact (Nx Hm)|]. exact (S m (or_intror Hm) G).
      - intros m Hm. apply F. right. exact Hm. }
    destruct q as [q|]; [injection E as _ _ _ <-; cbn [List.length]; lia|].
    destruct (find_loop_c (find_node_c f d st res used) _ es s1) as [[[[r2 s2] k2] h2]|]; [|discriminate].
    injection E as _ _ _ <-. cbn [List.length]. lia.
Qed.

(** * Together *)
Theorem cycle_depth : forall c nodes found cycles calls depth,
  has_cycle_c (fuel_of c) (c_dag c) nodes = Some (found, cycles, calls, depth) -> nodes <> [] ->
  exists x r, In x nodes /\ chain (runs_after (c_dag c)) x r /\ depth = S (List.length r).
Proof.
  intros c nodes b ev k h E Hn. destruct (has_cycle_deep _ _ _ _ _ _ _ _ _ E) as [[-> _]|(x & Hx & r & C & H)]; [destruct Hn; reflexivity|].
  exists x, r. auto.
Qed.
Theorem search_depth : forall c st used nodes found calls depth,
  find_candidate_c (fuel_of c) (c_dag c) st (node_res c) used nodes [] = Some (found, calls, depth) -> nodes <> [] ->
  exists x r, In x nodes /\ chain (runs_after (c_dag c)) x r /\ depth = S (List.length r).
Proof.
  intros c st used nodes b k h E Hn. destruct (candidate_deep _ _ _ _ _ _ _ _ _ _ E) as [[-> _]|(x & Hx & r & C & H)]; [destruct Hn; reflexivity|].
  exists x, r. auto.
Qed.
Theorem insert_depth : forall fuel st tmp addr filt tmp' b b' calls depth,
  dfs_all_c fuel st tmp addr filt tmp' b = Built (b', calls, depth) -> depth <> 0 ->
  exists name t r, In (name, t) tmp' /\ contains filt name = true /\
    chain (fun a b => In b (t_depends_on (st_get st a))) t r /\ depth = S (List.length r).
Proof.
  intros fuel st tmp addr filt tmp' b b' k h E Hn.
  destruct (dfs_all_deep st tmp addr fuel filt tmp' b b' k h E) as [->|(name & t & H1 & H2 & r & C & H)]; [destruct Hn; reflexivity|].
  exists name, t, r. auto.
Qed.
Theorem cycle_depth_reached : forall c x r nodes found cycles calls depth,
  only_chain (c_dag c) x r -> NoDup (x :: r) ->
  has_cycle_c (fuel_of c) (c_dag c) (x :: nodes) = Some (found, cycles, calls, depth) -> S (List.length r) <= depth.
Proof.
  intros c x r nodes b ev k h C N E. unfold has_cycle_c in E. cbn [has_cycle_loop_c] in E.
  destruct (check_for_cycle_c _ _ x [] []) as [[[[[[p s1] s2] ev1] k1] h1]|] eqn:E1; [|discriminate].
  pose proof (cycle_reached _ r _ x [] [] _ _ _ C N (fun m _ H => H) E1) as D.
  destruct p as [p|]; [injection E as _ _ _ <-; exact D|].
  destruct (has_cycle_loop_c _ _ nodes s1 s2) as [[[[b2 ev2] k2] h2]|]; [|discriminate]. injection E as _ _ _ <-. lia.
Qed.
Theorem search_depth_reached : forall c st used x r nodes found calls depth,
  only_chain (c_dag c) x r -> NoDup (x :: r) ->
  (forall m, In m (x :: r) -> ns_started (st m) = false /\ ns_done (st m) = false) ->
  find_candidate_c (fuel_of c) (c_dag c) st (node_res c) used (x :: nodes) [] = Some (found, calls, depth) ->
  S (List.length r) <= depth.
Proof.
  intros c st used x r nodes b k h C N F E. cbn [find_candidate_c] in E.
  destruct (find_node_c _ _ st _ used x []) as [[[[p s1] k1] h1]|] eqn:E1; [|discriminate].
  pose proof (find_reached _ st _ used r _ x [] _ _ _ _ C N (fun m _ H => H) F E1) as D.
  destruct p as [p|]; [injection E as _ _ <-; exact D|].
  destruct (find_candidate_c _ _ st _ used nodes s1) as [[[b2 k2] h2]|]; [|discriminate]. injection E as _ _ <-. lia.
Qed.
