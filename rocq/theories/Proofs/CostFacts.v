(** The counters of Model/Cost.v: same answers, and bounds. *)
From Coq Require Import String Lia Permutation.
From Verif Require Import Model.Common Model.TaskSet Model.Dag Model.Sched Model.Exec Model.Cost
     Spec.Graph Spec.Tasks Proofs.Sets Proofs.SchedFacts Proofs.InvalFacts.
Open Scope nat_scope.
Open Scope list_scope.

(** * Sums over distinct nodes *)
Fixpoint weight (w : nat -> nat) (l : list nat) : nat :=
  match l with [] => 0 | x :: r => w x + weight w r end.

Lemma weight_insert w x l : ~ In x l -> weight w (set_insert x l) = w x + weight w l.
Proof.
  induction l as [|y l IH]; intros H; cbn [set_insert weight]; [reflexivity|].
  destruct (x <? y); [reflexivity|]. destruct (Nat.eqb_spec x y) as [->|_]; [exfalso; apply H; left; reflexivity|].
  cbn [weight]. rewrite IH by (intros G; apply H; right; exact G). lia.
Qed.
Lemma insert_len x l : ~ In x l -> List.length (set_insert x l) = S (List.length l).
Proof.
  induction l as [|y l IH]; intros H; cbn [set_insert List.length]; [reflexivity|].
  destruct (x <? y); [reflexivity|]. destruct (Nat.eqb_spec x y) as [->|_]; [exfalso; apply H; left; reflexivity|].
  cbn [List.length]. rewrite IH by (intros G; apply H; right; exact G). reflexivity.
Qed.
Lemma insert_nodup x l : ~ In x l -> NoDup l -> NoDup (set_insert x l).
Proof.
  induction l as [|y l IH]; intros H N; cbn [set_insert]; [constructor; [intros []|constructor]|].
  inversion N as [|? ? Ny Nl]; subst.
  destruct (x <? y); [constructor; assumption|]. destruct (Nat.eqb_spec x y) as [->|_]; [exact N|].
  constructor; [|apply IH; [intros G; apply H; right; exact G|exact Nl]].
  intros G. apply set_insert_In in G. destruct G as [->|G]; [apply H; left; reflexivity|contradiction].
Qed.

Lemma weight_split f : forall (l : list nat) (es : list edge), NoDup l ->
  weight (fun x => List.length (filter (fun e => f e =? x) es)) l <= List.length es.
Proof.
  intros l es N. induction es as [|e es IH].
  - cbn. clear N. induction l; cbn; lia.
  - enough (G : weight (fun x => List.length (filter (fun e => f e =? x) (e :: es))) l <=
                S (weight (fun x => List.length (filter (fun e => f e =? x) es)) l)) by (cbn [List.length]; lia).
    clear IH. induction l as [|x l IHl]; cbn [weight]; [lia|]. inversion N as [|? ? Nx Nl]; subst.
    cbn [filter]. destruct (Nat.eqb_spec (f e) x) as [E|E]; [|specialize (IHl Nl); cbn in IHl |- *; lia].
    cbn [List.length]. enough (G : weight (fun x => List.length (if f e =? x then e :: filter (fun e => f e =? x) es else filter (fun e => f e =? x) es)) l =
      weight (fun x => List.length (filter (fun e => f e =? x) es)) l) by lia.
    clear IHl Nl N. induction l as [|y l IH]; cbn [weight]; [reflexivity|].
    rewrite IH by (intros G; apply Nx; right; exact G).
    destruct (Nat.eqb_spec (f e) y) as [E'|_]; [|reflexivity]. exfalso. apply Nx. left. congruence.
Qed.
Lemma filter_comm {A} (f g : A -> bool) l : filter f (filter g l) = filter g (filter f l).
Proof. induction l as [|x l IH]; cbn; [reflexivity|]. destruct (f x) eqn:F, (g x) eqn:G; cbn; rewrite ?F, ?G, IH; reflexivity. Qed.
Lemma weight_ext u v l : (forall x, u x = v x) -> weight u l = weight v l.
Proof. intros H. induction l; cbn; congruence. Qed.

Lemma weight_out d k l : NoDup l ->
  weight (fun n => List.length (filter_edges k (out_edges d n))) l <= edges_of d k.
Proof.
  intros N. unfold edges_of. etransitivity; [|apply (weight_split e_src l _ N)].
  apply Nat.eq_le_incl, weight_ext. intros n. unfold filter_edges, out_edges. rewrite filter_comm. reflexivity.
Qed.
Lemma weight_in d k l : NoDup l ->
  weight (fun n => List.length (filter_edges k (in_edges d n))) l <= edges_of d k.
Proof.
  intros N. unfold edges_of. etransitivity; [|apply (weight_split e_tgt l _ N)].
  apply Nat.eq_le_incl, weight_ext. intros n. unfold filter_edges, in_edges. rewrite filter_comm. reflexivity.
Qed.
Definition after_weight (d : dag) : list nid -> nat :=
  weight (fun n => List.length (after_targets d n)).
Lemma after_weight_le d l : NoDup l -> after_weight d l <= edges_of d AFTER.
Proof.
  intros N. unfold after_weight. rewrite <- (weight_out d AFTER l N). apply Nat.eq_le_incl, weight_ext.
  intros n. unfold after_targets, edge_targets. apply map_length.
Qed.
Lemma nodup_len (l ids : list nat) : NoDup l -> incl l ids -> List.length l <= List.length ids.
Proof. intros N H. apply NoDup_incl_length; assumption. Qed.

(** * find_candidate *)
Section Find.
Variables (d : dag) (st : nid -> nstate) (res : nid -> list rid) (used : list rid).
Hypothesis Hclosed : forall e, In e (d_edges d) -> In (e_tgt e) (node_ids d).
Let ids := node_ids d.
Let W := after_weight d.

Definition grown (seen seen' : list nid) : Prop :=
  NoDup seen' /\ incl seen' ids /\ List.length seen <= List.length seen'.

Lemma find_node_count : forall fuel n seen r seen',
  In n ids -> NoDup seen -> incl seen ids ->
  find_node fuel d st res used n seen = Some (r, seen') ->
  exists k h, find_node_c fuel d st res used n seen = Some (r, seen', k, h) /\
    grown seen seen' /\ k + W seen <= 1 + W seen' /\ h + List.length seen <= 1 + List.length seen'.
Proof.
  induction fuel as [|f IH]; intros n seen r seen' Hn Nd Hi H; cbn [find_node find_node_c] in *; [discriminate|].
  destruct (ns_started (st n) || ns_done (st n) || mem n seen) eqn:E.
  { injection H as <- <-. exists 1, 1. split; [reflexivity|]. split; [split; [exact Nd|split; [exact Hi|lia]]|lia]. }
  apply orb_false_iff in E. destruct E as [_ Em]. apply mem_false in Em. cbn zeta in H |- *.
  revert H. generalize (if negb (all_done st (after_targets d n)) || any_resource_used (res n) used then None else Some n).
  intros self H.
  assert (Loop : forall es s0 r s1, (forall m, In m es -> In m ids) -> NoDup s0 -> incl s0 ids ->
    find_loop (find_node f d st res used) self es s0 = Some (r, s1) ->
    exists k h, find_loop_c (find_node_c f d st res used) self es s0 = Some (r, s1, k, h) /\
      grown s0 s1 /\ k + W s0 <= List.length es + W s1 /\ h + List.length s0 <= 1 + List.length s1).
  { clear H r seen' n seen Hn Nd Hi Em. induction es as [|m es IHes]; intros s0 r s1 Hes Nd Hi H; cbn [find_loop find_loop_c] in *.
    - injection H as <- <-. exists 0, 0. split; [reflexivity|]. split; [split; [exact Nd|split; [exact Hi|lia]]|cbn; lia].
    - destruct (find_node f d st res used m s0) as [[r1 s2]|] eqn:E; [|discriminate].
      destruct (IH m s0 r1 s2 (Hes m (or_introl eq_refl)) Nd Hi E) as (k & h & -> & (G1 & G2 & G3) & K & D).
      destruct r1 as [p|].
      + injection H as <- <-. exists k, h. split; [reflexivity|]. split; [split; [exact G1|split; assumption]|].
        cbn [List.length]; unfold nid in *; lia.
      + destruct (IHes s2 r s1 (fun x Hx => Hes x (or_intror Hx)) G1 G2 H) as (k' & h' & -> & (G1' & G2' & G3') & K' & D').
        exists (k + k'), (Nat.max h h'). split; [reflexivity|]. split; [split; [exact G1'|split; [exact G2'|lia]]|].
        cbn [List.length]; unfold nid in *; lia. }
  destruct (Loop (after_targets d n) (set_insert n seen) r seen') as (k & h & -> & (G1 & G2 & G3) & K & D).
  - intros m Hm. apply after_targets_In in Hm. apply (Hclosed _ Hm).
  - apply insert_nodup; assumption.
  - intros x Hx. apply set_insert_In in Hx. destruct Hx as [->|Hx]; [exact Hn|apply Hi, Hx].
  - exact H.
  - exists (S k), (S h). split; [reflexivity|]. rewrite insert_len in G3, D by exact Em.
    unfold W, after_weight in K |- *. rewrite weight_insert in K by exact Em. cbv beta in K.
    unfold nid in *. split; [split; [exact G1|split; [exact G2|unfold nid; lia]]|lia].
Qed.

Lemma find_candidate_count : forall nodes fuel seen r,
  incl nodes ids -> NoDup seen -> incl seen ids ->
  find_candidate fuel d st res used nodes seen = Some r ->
  exists k h, find_candidate_c fuel d st res used nodes seen = Some (r, k, h) /\
    k + W seen <= List.length nodes + edges_of d AFTER /\ h <= 1 + List.length ids.
Proof.
  induction nodes as [|n nodes IH]; intros fuel seen r Hn Nd Hi H; cbn [find_candidate find_candidate_c] in *.
  { injection H as <-. exists 0, 0. split; [reflexivity|]. pose proof (after_weight_le d seen Nd). unfold W. cbn. lia. }
  destruct (find_node fuel d st res used n seen) as [[r1 s1]|] eqn:E; [|discriminate].
  destruct (find_node_count fuel n seen r1 s1 (Hn n (or_introl eq_refl)) Nd Hi E) as (k & h & -> & (G1 & G2 & G3) & K & D).
  pose proof (nodup_len _ _ G1 G2) as L. destruct r1 as [p|].
  - injection H as <-. exists k, h. split; [reflexivity|]. pose proof (after_weight_le d s1 G1). fold W in H.
    cbn [List.length]; unfold nid in *; lia.
  - destruct (IH fuel s1 r (fun x Hx => Hn x (or_intror Hx)) G1 G2 H) as (k' & h' & -> & K' & D').
    exists (k + k'), (Nat.max h h'). split; [reflexivity|]. cbn [List.length]; unfold nid in *; lia.
Qed.

(** * check_for_cycle *)
Lemma cycle_count : forall fuel n seen stack r seen' stack' ev,
  In n ids -> NoDup seen -> incl seen ids ->
  check_for_cycle fuel d n seen stack = Some (r, seen', stack', ev) ->
  exists k h, check_for_cycle_c fuel d n seen stack = Some ((r, seen', stack', ev), k, h) /\
    grown seen seen' /\ k + W seen <= 1 + W seen' /\ h + List.length seen <= 1 + List.length seen'.
Proof.
  induction fuel as [|f IH]; intros n seen stack r seen' stack' ev Hn Nd Hi H; cbn [check_for_cycle check_for_cycle_c] in *; [discriminate|].
  destruct (mem n seen) eqn:Em.
  { destruct (mem n stack); injection H as <- <- <- <-; exists 1, 1; (split; [reflexivity|]);
      (split; [split; [exact Nd|split; [exact Hi|lia]]|lia]). }
  apply mem_false in Em.
  assert (Loop : forall es s0 t0 r s1 t1 ev, (forall m, In m es -> In m ids) -> NoDup s0 -> incl s0 ids ->
    cycle_loop (check_for_cycle f d) n es s0 t0 = Some (r, s1, t1, ev) ->
    exists k h, cycle_loop_c (check_for_cycle_c f d) n es s0 t0 = Some ((r, s1, t1, ev), k, h) /\
      grown s0 s1 /\ k + W s0 <= List.length es + W s1 /\ h + List.length s0 <= 1 + List.length s1).
  { clear H r seen' stack' ev Hn Nd Hi Em seen stack.
    induction es as [|m es IHes]; intros s0 t0 r s1 t1 ev Hes Nd Hi H; cbn [cycle_loop cycle_loop_c] in *.
    - injection H as <- <- <- <-. exists 0, 0. split; [reflexivity|]. split; [split; [exact Nd|split; [exact Hi|lia]]|cbn; lia].
    - destruct (check_for_cycle f d m s0 t0) as [[[[r1 s2] t2] ev1]|] eqn:E; [|discriminate].
      destruct (IH m s0 t0 r1 s2 t2 ev1 (Hes m (or_introl eq_refl)) Nd Hi E) as (k & h & -> & (G1 & G2 & G3) & K & D).
      destruct r1 as [p|].
      + destruct (negb (p =? n)); injection H as <- <- <- <-; exists k, h; (split; [reflexivity|]);
          (split; [split; [exact G1|split; assumption]|]); cbn [List.length]; lia.
      + destruct (cycle_loop (check_for_cycle f d) n es s2 t2) as [[[[r3 s3] t3] ev3]|] eqn:E3; [|discriminate].
        injection H as <- <- <- <-.
        destruct (IHes s2 t2 r3 s3 t3 ev3 (fun x Hx => Hes x (or_intror Hx)) G1 G2 E3) as (k' & h' & -> & (G1' & G2' & G3') & K' & D').
        exists (k + k'), (Nat.max h h'). split; [reflexivity|]. split; [split; [exact G1'|split; [exact G2'|lia]]|].
        cbn [List.length]; unfold nid in *; lia. }
  destruct (Loop (after_targets d n) (set_insert n seen) (stack ++ [n]) r seen' stack' ev) as (k & h & -> & (G1 & G2 & G3) & K & D).
  - intros m Hm. apply after_targets_In in Hm. apply (Hclosed _ Hm).
  - apply insert_nodup; assumption.
  - intros x Hx. apply set_insert_In in Hx. destruct Hx as [->|Hx]; [exact Hn|apply Hi, Hx].
  - exact H.
  - exists (S k), (S h). split; [reflexivity|]. rewrite insert_len in G3, D by exact Em.
    unfold W, after_weight in K |- *. rewrite weight_insert in K by exact Em. cbv beta in K.
    unfold nid in *. split; [split; [exact G1|split; [exact G2|unfold nid; lia]]|lia].
Qed.

Lemma has_cycle_count : forall nodes fuel seen stack b ev,
  incl nodes ids -> NoDup seen -> incl seen ids ->
  has_cycle_loop fuel d nodes seen stack = Some (b, ev) ->
  exists k h, has_cycle_loop_c fuel d nodes seen stack = Some (b, ev, k, h) /\
    k + W seen <= List.length nodes + edges_of d AFTER /\ h <= 1 + List.length ids.
Proof.
  induction nodes as [|n nodes IH]; intros fuel seen stack b ev Hn Nd Hi H; cbn [has_cycle_loop has_cycle_loop_c] in *.
  { injection H as <- <-. exists 0, 0. split; [reflexivity|]. pose proof (after_weight_le d seen Nd). unfold W. cbn. lia. }
  destruct (check_for_cycle fuel d n seen stack) as [[[[r1 s1] t1] ev1]|] eqn:E; [|discriminate].
  destruct (cycle_count fuel n seen stack r1 s1 t1 ev1 (Hn n (or_introl eq_refl)) Nd Hi E) as (k & h & -> & (G1 & G2 & G3) & K & D).
  pose proof (nodup_len _ _ G1 G2) as L. destruct r1 as [p|].
  - injection H as <- <-. exists k, h. split; [reflexivity|]. pose proof (after_weight_le d s1 G1). fold W in H.
    cbn [List.length]; unfold nid in *; lia.
  - destruct (has_cycle_loop fuel d nodes s1 t1) as [[b2 ev2]|] eqn:E2; [|discriminate]. injection H as <- <-.
    destruct (IH fuel s1 t1 b2 ev2 (fun x Hx => Hn x (or_intror Hx)) G1 G2 E2) as (k' & h' & -> & K' & D').
    exists (k + k'), (Nat.max h h'). split; [reflexivity|]. cbn [List.length]; unfold nid in *; lia.
Qed.
End Find.

(** * propagate_invalidation *)
Lemma prop_count d : (forall e, In e (d_edges d) -> In (e_src e) (node_ids d)) ->
  forall fuel st todo seen ev taken,
  sorted todo -> NoDup taken -> incl taken seen -> incl taken (node_ids d) -> incl todo (node_ids d) ->
  (forall x, In x todo -> ~ In x taken) ->
  exists a b, prop_loop_c fuel d st todo seen ev (List.length taken) (weight (fun n => List.length (filter_edges INVALIDATED_BY (in_edges d n))) taken)
    = (prop_loop fuel d st todo seen ev, a, b) /\ a <= List.length (node_ids d) /\ b <= edges_of d INVALIDATED_BY.
Proof.
  intros Hc. induction fuel as [|f IH]; intros st todo seen ev taken Hs Nt Hts Hti Htd Hd.
  - cbn. destruct todo; eexists; eexists; (split; [reflexivity|]); (split; [apply nodup_len; assumption|apply weight_in, Nt]).
  - cbn [prop_loop prop_loop_c]. destruct todo as [|p todo].
    { eexists; eexists; (split; [reflexivity|]); (split; [apply nodup_len; assumption|apply weight_in, Nt]). }
    destruct (negb (inval_eqb (ns_inval (st p)) INVALID)).
    { eexists; eexists; (split; [reflexivity|]); (split; [apply nodup_len; assumption|apply weight_in, Nt]). }
    cbn zeta.
    destruct (prop_edges (filter_edges INVALIDATED_BY (in_edges d p)) (set_insert p seen) st todo ev) as [[st' todo''] ev'] eqn:E.
    apply prop_edges_spec in E. destruct E as (E1 & E2 & _).
    inversion Hs as [|? ? Hlt Hs']; subst.
    assert (Hp : ~ In p taken) by (apply Hd; left; reflexivity).
    specialize (IH st' todo'' (set_insert p seen) ev' (p :: taken) (E1 Hs')).
    cbn [List.length weight] in IH. apply IH.
    + constructor; assumption.
    + intros x [->|Hx]; apply set_insert_In; [left; reflexivity|right; apply Hts, Hx].
    + intros x [->|Hx]; [apply Htd; left; reflexivity|apply Hti, Hx].
    + intros x Hx. apply E2 in Hx. destruct Hx as [Hx|(e & He & <-)]; [apply Htd; right; exact Hx|].
      apply fresh_edges_In in He. apply Hc. destruct He as [He _]. unfold filter_edges, in_edges in He.
      apply filter_In in He. destruct He as [He _]. apply filter_In in He. apply He.
    + intros x Hx Hin. apply E2 in Hx. destruct Hx as [Hx|(e & He & <-)].
      * destruct Hin as [<-|Hin]; [specialize (Hlt _ Hx); lia|]. apply (Hd x); [right; exact Hx|exact Hin].
      * apply fresh_edges_In in He. apply (proj2 He). apply set_insert_In.
        destruct Hin as [->|Hin]; [left; reflexivity|right; apply Hts, Hin].
Qed.

(** * insert_set *)
Section Build.
Variables (st : store) (tmp : list (string * tid)) (addr : tid -> nid).
Let R (b : bstate) := edges_of (b_dag b) REQUIRES.
Let N (b : bstate) := List.length (d_nodes (b_dag b)).

Lemma dfs_count : forall fuel t b b', dfs fuel st tmp addr t b = Built b' ->
  exists k h, dfs_c fuel st tmp addr t b = Built (b', k, h) /\ N b <= N b' /\
    k + R b <= 1 + R b' /\ h + N b <= 1 + N b'.
Proof.
  induction fuel as [|f IH]; intros t b b' H; cbn [dfs dfs_c] in *; [discriminate|].
  destruct (mem t (b_index b)); [injection H as <-; exists 1, 1; split; [reflexivity|]; lia|].
  destruct (negb (mem t (st_dom st))); [discriminate|]. cbn zeta in H |- *.
  set (b0 := BState _ _ _) in *.
  assert (Loop : forall ds b b', dfs_deps (dfs f st tmp addr) addr t ds b = Built b' ->
    exists k h, dfs_deps_c (dfs_c f st tmp addr) addr t ds b = Built (b', k, h) /\ N b <= N b' /\
      k + R b <= R b' /\ h + N b <= 1 + N b').
  { clear H b0 b b'. induction ds as [|x ds IHds]; intros b b' H; cbn [dfs_deps dfs_deps_c] in *.
    - injection H as <-. exists 0, 0. split; [reflexivity|]. lia.
    - destruct (dfs f st tmp addr x b) as [b1| |] eqn:E; [|discriminate|discriminate].
      destruct (IH x b b1 E) as (k & h & -> & G & K & D). cbn zeta in H |- *.
      destruct (IHds _ _ H) as (k' & h' & -> & G' & K' & D').
      exists (k + k'), (Nat.max h h'). split; [reflexivity|].
      unfold N, R, edges_of in *. cbn [b_dag add_edge d_nodes d_edges filter e_kind ekind_eqb List.length] in *. lia. }
  destruct (Loop _ _ _ H) as (k & h & -> & G & K & D). exists (S k), (S h). split; [reflexivity|].
  subst b0. unfold N, R in *. cbn [b_dag emplace d_nodes List.length] in *. 
  change (edges_of (emplace (b_dag b) (addr t) match tmp_get tmp t with Some n => n | None => EmptyString end t) REQUIRES)
    with (edges_of (b_dag b) REQUIRES) in K. lia.
Qed.

Lemma dfs_all_count : forall fuel filt tmp' b b', dfs_all fuel st tmp addr filt tmp' b = Built b' ->
  exists k h, dfs_all_c fuel st tmp addr filt tmp' b = Built (b', k, h) /\ N b <= N b' /\
    k + R b <= List.length tmp' + R b' /\ h <= 1 + N b'.
Proof.
  intros fuel filt. induction tmp' as [|[name t] r IH]; intros b b' H; cbn [dfs_all dfs_all_c] in *.
  { injection H as <-. exists 0, 0. split; [reflexivity|]. cbn. lia. }
  destruct (contains filt name).
  - destruct (dfs fuel st tmp addr t b) as [b1| |] eqn:E; [|discriminate|discriminate].
    destruct (dfs_count fuel t b b1 E) as (k & h & -> & G & K & D).
    destruct (IH b1 b' H) as (k' & h' & -> & G' & K' & D').
    exists (k + k'), (Nat.max h h'). split; [reflexivity|]. cbn [List.length]. lia.
  - destruct (IH b b' H) as (k' & h' & -> & G' & K' & D'). exists k', h'. split; [reflexivity|].
    split; [exact G'|]. cbn [List.length]. lia.
Qed.
End Build.

Lemma opt_edges_same index addr t k ds : k <> REQUIRES -> forall g,
  d_nodes (add_opt_edges index addr t k ds g) = d_nodes g /\
  edges_of (add_opt_edges index addr t k ds g) REQUIRES = edges_of g REQUIRES.
Proof.
  intros Hk. unfold add_opt_edges. induction ds as [|x ds IH]; intros g; cbn [fold_left]; [auto|].
  destruct (IH (if mem x index then add_edge g (addr t) (addr x) k else g)) as [-> ->].
  destruct (mem x index); [|auto]. split; [reflexivity|]. unfold edges_of. cbn. destruct k; [reflexivity|reflexivity|congruence].
Qed.
Lemma opt_all_same st index addr l : forall g,
  let g' := fold_left (fun g t =>
             let g := add_opt_edges index addr t AFTER (t_run_after (st_get st t)) g in
             add_opt_edges index addr t INVALIDATED_BY (t_invalidated_by (st_get st t)) g) l g in
  d_nodes g' = d_nodes g /\ edges_of g' REQUIRES = edges_of g REQUIRES.
Proof.
  cbn zeta. induction l as [|t l IH]; intros g; cbn [fold_left]; [auto|]. 
  destruct (IH (add_opt_edges index addr t INVALIDATED_BY (t_invalidated_by (st_get st t))
    (add_opt_edges index addr t AFTER (t_run_after (st_get st t)) g))) as [-> ->].
  destruct (opt_edges_same index addr t INVALIDATED_BY (t_invalidated_by (st_get st t)) ltac:(discriminate)
    (add_opt_edges index addr t AFTER (t_run_after (st_get st t)) g)) as [-> ->].
  apply opt_edges_same. discriminate.
Qed.

(** * As the code calls them *)
Lemma cycle_check_cost : forall c nodes, wf_dag (c_dag c) -> incl nodes (node_ids (c_dag c)) ->
  exists found cycles calls depth,
    has_cycle (fuel_of c) (c_dag c) nodes = Some (found, cycles) /\
    has_cycle_c (fuel_of c) (c_dag c) nodes = Some (found, cycles, calls, depth) /\
    calls <= List.length nodes + edges_of (c_dag c) AFTER /\
    depth <= 1 + List.length (node_ids (c_dag c)).
Proof.
  intros c nodes [Hnd Hc] Hn.
  assert (X : exists b ev, has_cycle (fuel_of c) (c_dag c) nodes = Some (b, ev)).
  { destruct (has_cycle_spec (c_dag c) (fuel_of c) nodes (fun e He => proj2 (Hc e He)) Hn) as [(cyc & -> & _)|(-> & _)]; eauto.
    unfold fuel_of, node_ids. rewrite map_length. lia. }
  destruct X as (b & ev & E). exists b, ev. unfold has_cycle in E.
  destruct (has_cycle_count (c_dag c) (fun e He => proj2 (Hc e He)) nodes (fuel_of c) [] [] b ev Hn (NoDup_nil _)
    ltac:(intros x []) E) as (k & h & Ek & K & D).
  exists k, h. split; [exact E|]. split; [exact Ek|]. split; [|exact D].
  unfold after_weight in K. cbn [weight] in K. lia.
Qed.

Lemma search_cost : forall c st used nodes, wf_dag (c_dag c) -> incl nodes (node_ids (c_dag c)) ->
  exists found calls depth,
    find_candidate (fuel_of c) (c_dag c) st (node_res c) used nodes [] = Some found /\
    find_candidate_c (fuel_of c) (c_dag c) st (node_res c) used nodes [] = Some (found, calls, depth) /\
    calls <= List.length nodes + edges_of (c_dag c) AFTER /\
    depth <= 1 + List.length (node_ids (c_dag c)).
Proof.
  intros c st used nodes [Hnd Hc] Hn.
  destruct (find_candidate_fuel (c_dag c) st (node_res c) used (fun e He => proj2 (Hc e He)) nodes (fuel_of c) [] Hn) as [r E].
  { pose proof (unseen_le (node_ids (c_dag c)) []) as H. unfold fuel_of. unfold node_ids at 2 in H. rewrite map_length in H. lia. }
  exists r.
  destruct (find_candidate_count (c_dag c) st (node_res c) used (fun e He => proj2 (Hc e He)) nodes (fuel_of c) [] r Hn (NoDup_nil _)
    ltac:(intros x []) E) as (k & h & Ek & K & D).
  exists k, h. split; [exact E|]. split; [exact Ek|]. split; [|exact D].
  unfold after_weight in K. cbn [weight] in K. lia.
Qed.

Lemma propagation_cost : forall c nodes ns prop ev, wf_dag (c_dag c) ->
  NoDup nodes -> (forall x, In x nodes <-> In x (node_ids (c_dag c))) ->
  inval_pass (node_has_job c) (c_inval c) nodes (fun _ => nstate0) [] [] = PassOk ns prop ev ->
  exists ns' ev' taken edges,
    prop_loop (fuel_of c) (c_dag c) ns prop prop ev = PropOk ns' ev' /\
    prop_loop_c (fuel_of c) (c_dag c) ns prop prop ev 0 0 = (PropOk ns' ev', taken, edges) /\
    taken <= List.length (node_ids (c_dag c)) /\ edges <= edges_of (c_dag c) INVALIDATED_BY.
Proof.
  intros c nodes ns prop ev Hwf Nd Hids E.
  destruct (propagate_spec c nodes Hwf Nd Hids ns prop ev E) as (_ & _ & ns' & evd & Ep & _).
  assert (P : pass_post (node_has_job c) (c_inval c) nodes (fun _ => nstate0) [] [] (PassOk ns prop ev))
    by (rewrite <- E; apply inval_pass_spec, Nd).
  cbn [pass_post] in P. destruct P as (_ & _ & P3 & P4 & _).
  destruct (prop_count (c_dag c) (fun e He => proj1 (proj2 Hwf e He)) (fuel_of c) ns prop prop ev []) as (a & b & Ec & A & B).
  - apply P3. constructor.
  - constructor.
  - intros x [].
  - intros x [].
  - intros x Hx. apply P4 in Hx. apply Hids. destruct Hx as [[]|[Hx _]]. exact Hx.
  - intros x _ [].
  - cbn [List.length weight] in Ec. rewrite Ep in Ec. exists ns', (ev ++ evd), a, b. auto.
Qed.

Lemma insert_set_cost : forall g0 st ts filt addr ord1 ord2 g n,
  (forall l, Permutation (ord1 l) l) ->
  insert_set g0 st ts filt addr ord1 ord2 = Built (g, n) ->
  exists b calls depth,
    dfs_all (S (List.length (st_dom st))) st (for_each_task ts) addr filt (ord1 (for_each_task ts)) (BState g0 [] 0) = Built b /\
    dfs_all_c (S (List.length (st_dom st))) st (for_each_task ts) addr filt (ord1 (for_each_task ts)) (BState g0 [] 0)
      = Built (b, calls, depth) /\
    d_nodes (b_dag b) = d_nodes g /\
    calls + edges_of g0 REQUIRES <= List.length (for_each_task ts) + edges_of g REQUIRES /\
    depth <= 1 + List.length (node_ids g).
Proof.
  intros g0 st ts filt addr ord1 ord2 g n Ho E. unfold insert_set in E.
  destruct (dfs_all _ st (for_each_task ts) addr filt _ _) as [b| |] eqn:Eb; [|discriminate|discriminate].
  destruct (dfs_all_count st (for_each_task ts) addr _ filt _ _ _ Eb) as (k & h & Ek & _ & K & D).
  destruct (opt_all_same st (b_index b) addr (ord2 (b_index b)) (b_dag b)) as [O1 O2].
  exists b, k, h. split; [reflexivity|]. split; [exact Ek|]. injection E as Eg _. cbn zeta in O1, O2. rewrite Eg in O1, O2.
  rewrite (Permutation_length (Ho (for_each_task ts))) in K. cbn [b_dag] in K.
  split; [symmetry; exact O1|]. split; [rewrite O2; exact K|].
  unfold node_ids. rewrite map_length, O1. exact D.
Qed.
