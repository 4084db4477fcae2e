(** The graph searches of Model/Sched.v: soundness, completeness, termination. *)
From Coq Require Import Lia String Transitive_Closure.
From Verif Require Import Model.Common Model.TaskSet Model.Dag Model.Sched Model.Exec
     Spec.Graph Proofs.Sets.
Open Scope nat_scope.
Open Scope list_scope.

(** * Edges *)

Lemma ekind_eqb_eq a b : ekind_eqb a b = true <-> a = b.
Proof. destruct a, b; cbn; split; congruence. Qed.

Lemma filter_out_In d k n m :
  In m (edge_targets (filter_edges k (out_edges d n))) <-> In (Edge n m k) (d_edges d).
Proof.
  unfold edge_targets, filter_edges, out_edges. rewrite in_map_iff. split.
  - intros [[a b k'] [E H]]. cbn in E. subst b.
    apply filter_In in H. destruct H as [H Hk]. apply filter_In in H. destruct H as [H Hs].
    cbn in *. apply ekind_eqb_eq in Hk. apply Nat.eqb_eq in Hs. subst. exact H.
  - intros H. exists (Edge n m k). split; [reflexivity|].
    apply filter_In. split; [|apply ekind_eqb_eq; reflexivity].
    apply filter_In. split; [exact H|]. cbn. apply Nat.eqb_refl.
Qed.

Lemma after_targets_In d n m : In m (after_targets d n) <-> runs_after d n m.
Proof. apply filter_out_In. Qed.

Lemma filter_in_In d k e p :
  In e (filter_edges k (in_edges d p)) <-> In e (d_edges d) /\ e_tgt e = p /\ e_kind e = k.
Proof.
  unfold filter_edges, in_edges. rewrite !filter_In. rewrite Nat.eqb_eq, ekind_eqb_eq.
  intuition.
Qed.

Lemma any_dep_failed_spec d st n :
  any_dep_failed d st n = true <-> exists m, requires d n m /\ ns_failed (st m) = true.
Proof.
  unfold any_dep_failed. rewrite existsb_exists. split.
  - intros [e [He Hf]]. exists (e_tgt e). split; [|exact Hf].
    apply filter_out_In. unfold edge_targets. apply in_map. exact He.
  - intros [m [Hm Hf]]. apply filter_out_In in Hm. unfold edge_targets in Hm.
    apply in_map_iff in Hm. destruct Hm as [e [<- He]]. exists e. auto.
Qed.

Lemma all_done_spec st l : all_done st l = true <-> forall m, In m l -> ns_done (st m) = true.
Proof. unfold all_done. apply forallb_forall. Qed.

Lemma any_resource_used_spec rs used :
  any_resource_used rs used = true <-> exists r, In r rs /\ In r used.
Proof.
  unfold any_resource_used. rewrite existsb_exists. split.
  - intros [r [H M]]. apply mem_In in M. eauto.
  - intros [r [H M]]. apply mem_In in M. eauto.
Qed.

(** * A measure for the searches: nodes not seen yet *)

Definition unseen (ids seen : list nid) : nat :=
  List.length (filter (fun x => negb (mem x seen)) ids).

Lemma filter_length_mono {A} (f g : A -> bool) l :
  (forall x, In x l -> f x = true -> g x = true) ->
  List.length (filter f l) <= List.length (filter g l).
Proof.
  induction l as [|x l IH]; intros H; cbn; [lia|].
  assert (IH' : List.length (filter f l) <= List.length (filter g l)).
  { apply IH. intros y Hy. apply H. right; exact Hy. }
  destruct (f x) eqn:F.
  - rewrite (H x (or_introl eq_refl) F). cbn. lia.
  - destruct (g x); cbn; lia.
Qed.

Lemma filter_length_strict {A} (f g : A -> bool) l x :
  (forall x, In x l -> f x = true -> g x = true) ->
  In x l -> f x = false -> g x = true ->
  List.length (filter f l) < List.length (filter g l).
Proof.
  induction l as [|y l IH]; intros H Hin Hf Hg; [destruct Hin|].
  assert (Hl : forall x, In x l -> f x = true -> g x = true).
  { intros z Hz. apply H. right; exact Hz. }
  destruct Hin as [->|Hin].
  - cbn. rewrite Hf, Hg. cbn. pose proof (filter_length_mono f g l Hl). lia.
  - specialize (IH Hl Hin Hf Hg). cbn.
    destruct (f y) eqn:F.
    + rewrite (H y (or_introl eq_refl) F). cbn. lia.
    + destruct (g y); cbn; lia.
Qed.

Lemma filter_length_le {A} (f : A -> bool) l : List.length (filter f l) <= List.length l.
Proof. induction l as [|x l IH]; cbn; [lia|]. destruct (f x); cbn; lia. Qed.

Lemma unseen_mono ids s1 s2 : incl s1 s2 -> unseen ids s2 <= unseen ids s1.
Proof.
  intros H. apply filter_length_mono. intros x _ Hx.
  apply negb_true_iff in Hx. apply negb_true_iff. apply mem_false. apply mem_false in Hx. auto.
Qed.

Lemma unseen_insert ids s n :
  In n ids -> ~ In n s -> unseen ids (set_insert n s) < unseen ids s.
Proof.
  intros Hin Hn. apply filter_length_strict with (x := n).
  - intros x _ Hx. apply negb_true_iff in Hx. apply negb_true_iff.
    apply mem_false. apply mem_false in Hx. intros H. apply Hx, set_insert_In. auto.
  - exact Hin.
  - apply negb_false_iff, mem_In, set_insert_In. auto.
  - apply negb_true_iff, mem_false. exact Hn.
Qed.

Lemma unseen_le ids s : unseen ids s <= List.length ids.
Proof. apply filter_length_le. Qed.

Lemma incl_set_insert x l : incl l (set_insert x l).
Proof. intros y Hy. apply set_insert_In. auto. Qed.

(** * find_candidate *)

Section Find.
  Variables (d : dag) (st : nid -> nstate) (res : nid -> list rid) (used : list rid).

  Definition free (n : nid) : Prop :=
    ns_started (st n) = false /\ ns_done (st n) = false.
  Definition ready (n : nid) : Prop :=
    free n /\ (forall m, runs_after d n m -> ns_done (st m) = true)
    /\ (forall r, In r (res n) -> ~ In r used).

  Lemma ready_self n :
    free n ->
    (negb (all_done st (after_targets d n)) || any_resource_used (res n) used = false)
    <-> ready n.
  Proof.
    intros Hf. rewrite orb_false_iff, negb_false_iff, all_done_spec.
    split.
    - intros [Hd Hr]. split; [exact Hf|]. split.
      + intros m Hm. apply Hd, after_targets_In, Hm.
      + intros r Hin Hu. assert (any_resource_used (res n) used = true); [|congruence].
        apply any_resource_used_spec. eauto.
    - intros [_ [Hd Hr]]. split.
      + intros m Hm. apply Hd, after_targets_In, Hm.
      + destruct (any_resource_used (res n) used) eqn:E; [|reflexivity].
        apply any_resource_used_spec in E. destruct E as [r [H1 H2]]. exfalso. eapply Hr; eauto.
  Qed.

  Definition find_post (n : nid) (seen : list nid) (r : option nid) (seen' : list nid) : Prop :=
    incl seen seen' /\
    match r with
    | Some m => ready m /\ clos_refl_trans nid (runs_after d) n m
    | None => (free n -> In n seen') /\
              (forall x, In x seen' -> ~ In x seen -> ~ ready x)
    end.

  Lemma find_node_sound : forall fuel n seen r seen',
    find_node fuel d st res used n seen = Some (r, seen') -> find_post n seen r seen'.
  Proof.
    induction fuel as [|f IH]; intros n seen r seen' H; [discriminate|].
    cbn [find_node] in H.
    destruct (ns_started (st n)) eqn:Es; cbn in H.
    { inversion H; subst. split; [apply incl_refl|]. split; [intros [? _]; congruence|tauto]. }
    destruct (ns_done (st n)) eqn:Ed; cbn in H.
    { inversion H; subst. split; [apply incl_refl|]. split; [intros [_ ?]; congruence|tauto]. }
    destruct (mem n seen) eqn:Em.
    { inversion H; subst. split; [apply incl_refl|]. apply mem_In in Em. tauto. }
    assert (Hfree : free n) by (split; assumption).
    assert (Loop : forall es s0 r0 s1,
      (forall m, In m es -> runs_after d n m) ->
      find_loop (find_node f d st res used)
        (if negb (all_done st (after_targets d n)) || any_resource_used (res n) used
         then None else Some n) es s0 = Some (r0, s1) ->
      incl s0 s1 /\
      match r0 with
      | Some m => ready m /\ clos_refl_trans nid (runs_after d) n m
      | None => ~ ready n /\ (forall x, In x s1 -> ~ In x s0 -> ~ ready x)
      end).
    { induction es as [|m es IHes]; intros s0 r0 s1 Hes HL; cbn [find_loop] in HL.
      - inversion HL; subst. split; [apply incl_refl|].
        destruct (negb (all_done st (after_targets d n)) || any_resource_used (res n) used) eqn:E.
        + split; [|tauto]. intros Hr. apply ready_self in Hr; [congruence|exact Hfree].
        + split; [apply ready_self; assumption|apply rt_refl].
      - destruct (find_node f d st res used m s0) as [[[p|] s2]|] eqn:E; [| |discriminate].
        + inversion HL; subst. apply IH in E. destruct E as [Hi [Hr Hp]].
          split; [exact Hi|]. split; [exact Hr|].
          apply rt_trans with m; [apply rt_step, Hes; left; reflexivity|exact Hp].
        + apply IH in E. destruct E as [Hi [_ Hx]].
          apply IHes in HL; [|intros; apply Hes; right; assumption].
          destruct HL as [Hi' HL]. split; [eapply incl_tran; eassumption|].
          destruct r0 as [q|]; [exact HL|]. destruct HL as [Hn Hx']. split; [exact Hn|].
          intros x H1 H2. destruct (in_dec Nat.eq_dec x s2) as [H3|H3].
          * apply Hx; assumption.
          * apply Hx'; assumption. }
    apply Loop in H; [|intros m Hm; apply after_targets_In, Hm].
    destruct H as [Hi H]. split.
    { eapply incl_tran; [apply incl_set_insert|exact Hi]. }
    destruct r as [m|]; [exact H|]. destruct H as [Hn Hx]. split.
    - intros _. apply Hi, set_insert_In. auto.
    - intros x H1 H2. destruct (Nat.eq_dec x n) as [->|Hne]; [exact Hn|].
      apply Hx; [exact H1|]. intros H3. apply set_insert_In in H3. tauto.
  Qed.

  Hypothesis Hclosed : forall e, In e (d_edges d) -> In (e_tgt e) (node_ids d).

  Lemma find_node_fuel : forall fuel n seen,
    In n (node_ids d) -> unseen (node_ids d) seen < fuel ->
    exists r seen', find_node fuel d st res used n seen = Some (r, seen').
  Proof.
    induction fuel as [|f IH]; intros n seen Hn Hf; [lia|].
    cbn [find_node].
    destruct (ns_started (st n) || ns_done (st n) || mem n seen) eqn:E; [eauto|].
    apply orb_false_iff in E. destruct E as [_ Em]. apply mem_false in Em.
    pose proof (unseen_insert _ _ _ Hn Em) as Hlt.
    generalize (if negb (all_done st (after_targets d n)) || any_resource_used (res n) used
                then None else Some n) as self. intros self.
    assert (Loop : forall es s0,
      (forall m, In m es -> In m (node_ids d)) -> unseen (node_ids d) s0 < f ->
      exists r s1, find_loop (find_node f d st res used) self es s0 = Some (r, s1)).
    { induction es as [|m es IHes]; intros s0 Hes Hs; cbn [find_loop]; [eauto|].
      destruct (IH m s0) as [r [s1 E]]; [apply Hes; left; reflexivity|exact Hs|].
      rewrite E. destruct r as [p|]; [eauto|].
      apply find_node_sound in E. destruct E as [Hi _].
      apply IHes; [intros; apply Hes; right; assumption|].
      pose proof (unseen_mono (node_ids d) _ _ Hi). lia. }
    apply Loop; [|lia].
    intros m Hm. apply after_targets_In in Hm. apply (Hclosed _ Hm).
  Qed.

  Lemma find_candidate_sound : forall (nodes : list nid) fuel seen r,
    find_candidate fuel d st res used nodes seen = Some r ->
    match r with
    | Some m => ready m /\ exists n, In n nodes /\ clos_refl_trans nid (runs_after d) n m
    | None => forall x, In x nodes -> ready x -> In x seen
    end.
  Proof.
    induction nodes as [|n nodes IH]; intros fuel seen r H; cbn [find_candidate] in H.
    - inversion H; subst. intros x [].
    - destruct (find_node fuel d st res used n seen) as [[[p|] s1]|] eqn:E; [| |discriminate];
        apply find_node_sound in E; destruct E as [Hi E].
      + inversion H; subst. destruct E as [Hr Hp]. split; [exact Hr|].
        exists n. split; [left; reflexivity|exact Hp].
      + apply IH in H. destruct E as [Hn Hx]. destruct r as [m|].
        * destruct H as [Hr [n' [Hin Hp]]]. split; [exact Hr|].
          exists n'. split; [right; exact Hin|exact Hp].
        * intros x [->|Hin] Hr.
          -- destruct (in_dec Nat.eq_dec x seen) as [|Hs]; [assumption|].
             exfalso. apply (Hx x); [apply Hn, Hr|exact Hs|exact Hr].
          -- specialize (H x Hin Hr). destruct (in_dec Nat.eq_dec x seen) as [|Hs]; [assumption|].
             exfalso. apply (Hx x); assumption.
  Qed.

  Lemma find_candidate_fuel : forall nodes fuel seen,
    incl nodes (node_ids d) -> unseen (node_ids d) seen < fuel ->
    exists r, find_candidate fuel d st res used nodes seen = Some r.
  Proof.
    induction nodes as [|n nodes IH]; intros fuel seen Hn Hf; cbn [find_candidate]; [eauto|].
    destruct (find_node_fuel fuel n seen) as [r [s1 E]]; [apply Hn; left; reflexivity|exact Hf|].
    rewrite E. destruct r as [p|]; [eauto|].
    apply find_node_sound in E. destruct E as [Hi _].
    apply IH; [intros x Hx; apply Hn; right; exact Hx|].
    pose proof (unseen_mono (node_ids d) _ _ Hi). lia.
  Qed.
End Find.

(** * The cycle check *)

Definition succ_of (d : dag) (y x : nid) : Prop := runs_after d x y.

Lemma acc_irrefl {A} (R : A -> A -> Prop) x : Acc R x -> ~ R x x.
Proof. induction 1 as [x _ IH]. intros H. exact (IH x H H). Qed.

Lemma clos_trans_flip d x y :
  clos_trans nid (runs_after d) x y -> clos_trans nid (succ_of d) y x.
Proof.
  induction 1 as [x y H|x y z _ IH1 _ IH2]; [apply t_step; exact H|eapply t_trans; eassumption].
Qed.

(** well-foundedness excludes cycles *)
Lemma acc_no_cycle d n : Acc (succ_of d) n -> ~ clos_trans nid (runs_after d) n n.
Proof.
  intros H Hc. apply clos_trans_flip in Hc. revert Hc.
  apply acc_irrefl, Acc_clos_trans, H.
Qed.

Lemma all_acc_acyclic d :
  wf_dag d -> (forall n, In n (node_ids d) -> Acc (succ_of d) n) -> acyclic d.
Proof.
  intros [_ Hw] H [n Hc]. apply (acc_no_cycle d n); [|exact Hc].
  apply H. clear -Hc Hw.
  apply clos_trans_t1n in Hc. inversion Hc as [y Hy|y z Hy _]; apply (Hw _ Hy).
Qed.

Lemma last_cons {A} (l : list A) : forall x y, last (x :: l) y = last l x.
Proof.
  induction l as [|z l IH]; intros x y; [reflexivity|].
  change (last (x :: z :: l) y) with (last (z :: l) y). rewrite !IH. reflexivity.
Qed.

Lemma chain_app R l1 : forall x l2,
  chain R x (l1 ++ l2) <-> chain R x l1 /\ chain R (last l1 x) l2.
Proof.
  induction l1 as [|y l1 IH]; intros x l2; cbn [app chain].
  - cbn. tauto.
  - rewrite IH, last_cons. tauto.
Qed.

Lemma chain_trans d l : forall x, chain (runs_after d) x l -> l <> [] ->
  clos_trans nid (runs_after d) x (last l x).
Proof.
  induction l as [|y l IH]; intros x H Hne; [congruence|].
  destruct H as [Hxy Hl]. rewrite last_cons.
  destruct l as [|z l]; [apply t_step; exact Hxy|].
  eapply t_trans; [apply t_step; exact Hxy|]. apply IH; [exact Hl|discriminate].
Qed.

Lemma is_cycle_has d l : is_cycle d l -> has_after_cycle d.
Proof.
  destruct l as [|x r]; [intros []|]. intros [_ [Hc Hl]]. exists x.
  rewrite last_cons in Hl. destruct r as [|y r].
  - apply t_step. exact Hl.
  - eapply t_trans; [apply chain_trans; [exact Hc|discriminate]|]. apply t_step, Hl.
Qed.

(** The stack of the search: a duplicate-free path. *)
Definition path (d : dag) (stack : list nid) : Prop :=
  NoDup stack /\ match stack with [] => True | x :: r => chain (runs_after d) x r end.

Lemma path_snoc d stack n :
  path d stack -> ~ In n stack -> (stack <> [] -> runs_after d (last stack 0) n) ->
  path d (stack ++ [n]).
Proof.
  intros [Hnd Hc] Hn Hl. split.
  - rewrite <- (rev_involutive (stack ++ [n])), rev_unit.
    apply NoDup_rev. constructor; [rewrite <- in_rev; exact Hn|apply NoDup_rev, Hnd].
  - destruct stack as [|x r]; [exact I|]. cbn. apply chain_app. split; [exact Hc|].
    cbn. split; [|exact I]. rewrite <- (last_cons r x 0). apply Hl. discriminate.
Qed.

Lemma last_app_snoc {A} (l : list A) x y : last (l ++ [x]) y = x.
Proof. apply last_last. Qed.

Lemma get_cycle_app S T n : ~ In n S -> get_cycle (S ++ n :: T) n = n :: T.
Proof.
  induction S as [|x S IH]; intros H; cbn.
  - rewrite Nat.eqb_refl. reflexivity.
  - destruct (Nat.eqb_spec x n) as [->|]; [exfalso; apply H; left; reflexivity|].
    apply IH. intros Hin. apply H. right; exact Hin.
Qed.

Lemma path_suffix_cycle d S n T :
  path d (S ++ n :: T) -> runs_after d (last (S ++ n :: T) 0) n -> is_cycle d (n :: T).
Proof.
  intros [Hnd Hc] Hl. unfold is_cycle.
  assert (Hlast : last (S ++ n :: T) 0 = last (n :: T) n).
  { rewrite last_cons. clear. revert n. induction T as [|y T IH] using rev_ind; intros n.
    - apply last_last.
    - rewrite last_last. change (S ++ n :: T ++ [y]) with (S ++ (n :: T) ++ [y]).
      rewrite app_assoc. apply last_last. }
  split; [|split].
  - apply NoDup_remove_2 in Hnd as Hn. clear -Hnd. induction S as [|x S IH]; [exact Hnd|].
    inversion Hnd; auto.
  - destruct S as [|x S]; [exact Hc|]. cbn in Hc. apply chain_app in Hc.
    destruct Hc as [_ [_ Hc]]. exact Hc.
  - rewrite <- Hlast. exact Hl.
Qed.

Definition cyc_inv (d : dag) (seen stack : list nid) : Prop :=
  path d stack /\ incl stack seen /\
  (forall x, In x seen -> ~ In x stack -> Acc (succ_of d) x).

Definition cyc_post (d : dag) (n : nid) (seen stack : list nid) (r : cycle_res) : Prop :=
  let '(p, seen', stack', ev) := r in
  incl seen seen' /\
  match p with
  | None => ev = [] /\ stack' = stack /\ cyc_inv d seen' stack /\ Acc (succ_of d) n /\ In n seen'
  | Some p =>
      (In p stack /\ ev = [] /\
       exists T, stack' = stack ++ T /\ path d stack' /\ runs_after d (last stack' 0) p)
      \/ (~ In p stack /\ exists cyc, ev = [cyc] /\ is_cycle d cyc)
  end.

Lemma check_for_cycle_sound d : forall fuel n seen stack r,
  cyc_inv d seen stack -> (stack <> [] -> runs_after d (last stack 0) n) ->
  check_for_cycle fuel d n seen stack = Some r -> cyc_post d n seen stack r.
Proof.
  induction fuel as [|f IH]; intros n seen stack r Hinv Hlast H; [discriminate|].
  cbn [check_for_cycle] in H.
  destruct Hinv as [Hpath [Hincl Hacc]].
  destruct (mem n seen) eqn:Em.
  - apply mem_In in Em. destruct (mem n stack) eqn:Es; inversion H; subst; clear H; cbn.
    + apply mem_In in Es. split; [apply incl_refl|]. left.
      split; [exact Es|]. split; [reflexivity|].
      exists []. rewrite app_nil_r. split; [reflexivity|]. split; [exact Hpath|].
      apply Hlast. intros ->. destruct Es.
    + apply mem_false in Es. split; [apply incl_refl|].
      split; [reflexivity|]. split; [reflexivity|]. split; [split; [|split]; assumption|].
      split; [apply Hacc; assumption|assumption].
  - apply mem_false in Em.
    assert (Hns : ~ In n stack) by (intros Hx; apply Em, Hincl, Hx).
    assert (Hpath' : path d (stack ++ [n])) by (apply path_snoc; assumption).
    assert (Loop : forall es seen0 r0,
      (forall m, In m es -> runs_after d n m) ->
      cyc_inv d seen0 (stack ++ [n]) ->
      (forall m, runs_after d n m -> In m es \/ Acc (succ_of d) m) ->
      cycle_loop (check_for_cycle f d) n es seen0 (stack ++ [n]) = Some r0 ->
      let '(p, seen', stack', ev) := r0 in
      incl seen0 seen' /\
      match p with
      | None => ev = [] /\ stack' = stack /\ cyc_inv d seen' (stack ++ [n])
                /\ Acc (succ_of d) n
      | Some p =>
          (In p stack /\ ev = [] /\
           exists T, stack' = stack ++ T /\ path d stack' /\ runs_after d (last stack' 0) p)
          \/ (~ In p stack /\ exists cyc, ev = [cyc] /\ is_cycle d cyc)
      end).
    { induction es as [|m es IHes]; intros seen0 r0 Hes Hinv0 Hcov HL; cbn [cycle_loop] in HL.
      - inversion HL; subst. split; [apply incl_refl|].
        split; [reflexivity|]. split; [apply removelast_last|]. split; [exact Hinv0|].
        constructor. intros y Hy. destruct (Hcov y Hy) as [[]|Ha]. exact Ha.
      - destruct (check_for_cycle f d m seen0 (stack ++ [n])) as [[[[[p|] s1] st1] ev1]|] eqn:E;
          [| |discriminate].
        + apply IH in E; [|exact Hinv0|intros _; rewrite last_last; apply Hes; left; reflexivity].
          cbn in E. destruct E as [Hi E].
          destruct (Nat.eqb_spec p n) as [->|Hne]; cbn [negb] in HL; inversion HL; subst; clear HL.
          * split; [exact Hi|]. right. split; [exact Hns|].
            destruct E as [[_ [-> [T [-> [Hp Hl]]]]]|[Hn _]].
            -- exists (n :: T). rewrite <- app_assoc in *. cbn [app] in *.
               rewrite get_cycle_app by exact Hns. split; [reflexivity|].
               eapply path_suffix_cycle; eassumption.
            -- exfalso. apply Hn, in_app_iff. right; left; reflexivity.
          * split; [exact Hi|]. destruct E as [[Hin [-> [T [-> [Hp Hl]]]]]|[Hn [cyc [-> Hc]]]].
            -- left. apply in_app_iff in Hin. destruct Hin as [Hin|[->|[]]]; [|congruence].
               split; [exact Hin|]. split; [reflexivity|].
               exists (n :: T). rewrite <- app_assoc in *. cbn [app] in *. auto.
            -- right. split; [|exists cyc; auto].
               intros Hin. apply Hn, in_app_iff. left; exact Hin.
        + apply IH in E; [|exact Hinv0|intros _; rewrite last_last; apply Hes; left; reflexivity].
          cbn in E. destruct E as [Hi [-> [-> [Hinv1 [Ha _]]]]].
          destruct (cycle_loop (check_for_cycle f d) n es s1 (stack ++ [n]))
            as [[[[p s2] st2] ev2]|] eqn:E2; [|discriminate].
          inversion HL; subst; clear HL.
          apply IHes in E2; [|intros; apply Hes; right; assumption|exact Hinv1|].
          * destruct E2 as [Hi2 E2]. split; [eapply incl_tran; eassumption|exact E2].
          * intros y Hy. destruct (Hcov y Hy) as [[->|Hin]|Hacc']; auto. }
    specialize (Loop (after_targets d n) (set_insert n seen) r).
    assert (Hinv1 : cyc_inv d (set_insert n seen) (stack ++ [n])).
    { split; [exact Hpath'|]. split.
      - intros x Hx. apply set_insert_In. apply in_app_iff in Hx.
        destruct Hx as [Hx|[->|[]]]; auto.
      - intros x Hx Hnx. apply set_insert_In in Hx. destruct Hx as [->|Hx].
        + exfalso. apply Hnx, in_app_iff. right; left; reflexivity.
        + apply Hacc; [exact Hx|]. intros Hin. apply Hnx, in_app_iff. left; exact Hin. }
    apply Loop in H; [|intros m Hm; apply after_targets_In, Hm|exact Hinv1
                      |intros m Hm; left; apply after_targets_In, Hm].
    destruct r as [[[p s1] st1] ev1]. destruct H as [Hi H]. unfold cyc_post.
    assert (Hi0 : incl seen s1) by (eapply incl_tran; [apply incl_set_insert|exact Hi]).
    split; [exact Hi0|]. destruct p as [p|]; [exact H|].
    destruct H as [-> [-> [[_ [Hi1 Ha1]] Ha]]].
    assert (Hin : In n s1) by (apply Hi, set_insert_In; auto).
    split; [reflexivity|]. split; [reflexivity|]. split; [|split; assumption].
    split; [exact Hpath|]. split.
    + intros x Hx. apply Hi0, Hincl, Hx.
    + intros x Hx Hnx. destruct (Nat.eq_dec x n) as [->|Hne]; [exact Ha|].
      apply Ha1; [exact Hx|]. intros Hin'. apply in_app_iff in Hin'.
      destruct Hin' as [Hin'|[->|[]]]; [auto|congruence].
Qed.

Lemma check_for_cycle_fuel d : 
  (forall e, In e (d_edges d) -> In (e_tgt e) (node_ids d)) ->
  forall fuel n seen stack,
  In n (node_ids d) -> unseen (node_ids d) seen < fuel ->
  exists p seen' stack' ev,
    check_for_cycle fuel d n seen stack = Some (p, seen', stack', ev) /\ incl seen seen'.
Proof.
  intros Hcl. induction fuel as [|f IH]; intros n seen stack Hn Hf; [lia|].
  cbn [check_for_cycle]. destruct (mem n seen) eqn:Em.
  { destruct (mem n stack); do 4 eexists; (split; [reflexivity|apply incl_refl]). }
  apply mem_false in Em. pose proof (unseen_insert _ _ _ Hn Em) as Hlt.
  assert (Loop : forall es s0 st0,
    (forall m, In m es -> In m (node_ids d)) -> unseen (node_ids d) s0 < f ->
    exists p seen' stack' ev,
      cycle_loop (check_for_cycle f d) n es s0 st0 = Some (p, seen', stack', ev) /\ incl s0 seen').
  { induction es as [|m es IHes]; intros s0 st0 Hes Hs; cbn [cycle_loop].
    - do 4 eexists; (split; [reflexivity|apply incl_refl]).
    - destruct (IH m s0 st0) as [p [s1 [st1 [ev1 [E Hi]]]]]; [apply Hes; left; reflexivity|exact Hs|].
      rewrite E. destruct p as [p|].
      + destruct (negb (p =? n)); do 4 eexists; (split; [reflexivity|exact Hi]).
      + destruct (IHes s1 st1) as [p [s2 [st2 [ev2 [E2 Hi2]]]]].
        * intros; apply Hes; right; assumption.
        * pose proof (unseen_mono (node_ids d) _ _ Hi). lia.
        * rewrite E2. do 4 eexists; (split; [reflexivity|eapply incl_tran; eassumption]). }
  destruct (Loop (after_targets d n) (set_insert n seen) (stack ++ [n])) as [p [s1 [st1 [ev1 [E Hi]]]]].
  - intros m Hm. apply after_targets_In in Hm. apply (Hcl _ Hm).
  - lia.
  - do 4 eexists. split; [exact E|]. eapply incl_tran; [apply incl_set_insert|exact Hi].
Qed.

(** has_cycle always answers; "true" comes with exactly one report, of a real cycle;
    "false" means that the relation is well-founded on the nodes given. *)
Theorem has_cycle_spec d fuel todo :
  (forall e, In e (d_edges d) -> In (e_tgt e) (node_ids d)) ->
  incl todo (node_ids d) -> List.length (node_ids d) < fuel ->
  (exists cyc, has_cycle fuel d todo = Some (true, [cyc]) /\ is_cycle d cyc) \/
  (has_cycle fuel d todo = Some (false, []) /\ forall n, In n todo -> Acc (succ_of d) n).
Proof.
  intros Hcl Hin Hf. unfold has_cycle.
  assert (G : forall seen, cyc_inv d seen [] ->
    (exists cyc, has_cycle_loop fuel d todo seen [] = Some (true, [cyc]) /\ is_cycle d cyc) \/
    (has_cycle_loop fuel d todo seen [] = Some (false, []) /\ forall n, In n todo -> Acc (succ_of d) n)).
  { induction todo as [|n todo IH]; intros seen Hinv; cbn [has_cycle_loop].
    - right. split; [reflexivity|intros n []].
    - destruct (check_for_cycle_fuel d Hcl fuel n seen []) as [p [s1 [st1 [ev [E _]]]]].
      + apply Hin. left; reflexivity.
      + pose proof (unseen_le (node_ids d) seen). lia.
      + rewrite E. apply check_for_cycle_sound in E; [|exact Hinv|congruence].
        cbn in E. destruct E as [_ E]. destruct p as [p|].
        * destruct E as [[[] _]|[_ [cyc [-> Hc]]]]. left. eauto.
        * destruct E as [-> [-> [Hinv1 [Ha _]]]].
          destruct (IH (fun x Hx => Hin x (or_intror Hx)) s1 Hinv1) as [[cyc [E2 Hc]]|[E2 Hall]].
          -- left. exists cyc. rewrite E2. split; [reflexivity|exact Hc].
          -- right. rewrite E2. split; [reflexivity|]. intros m [->|Hm]; auto. }
  apply G. split; [|split].
  - split; [constructor|exact I].
  - intros x [].
  - intros x [].
Qed.
