(** The contents of files over the life of a project (C89). *)
From Coq Require Import String Lia Relations.
From Verif Require Import Model.Common Model.Records Model.Jobs Model.TaskSet Model.Dag Model.Sched Model.Exec
     Model.Text Model.Process Spec.Graph Spec.Trace Spec.Tasks Spec.Files Spec.Builds Spec.Contents
     Proofs.TraceFacts Proofs.ExecInv Proofs.LogFacts Proofs.ExecProps Proofs.ExecProps2 Proofs.ExecProps3
     Proofs.ExecProps4 Proofs.TaskFacts Proofs.BuildProps Proofs.SetExec Proofs.ProcessFacts Proofs.RootCause
     Proofs.Rebuild Proofs.Builds Proofs.PartFacts.
Open Scope nat_scope.
Open Scope list_scope.

Lemma stale_eq f g p : (forall q, In q (writes p) \/ In q (p_input p) -> f q = g q) -> stale g p -> stale f p.
Proof.
  intros E.
  assert (Eo : forall o, In o (p_output p) -> f o = g o).
  { intros o Ho. apply E. left. apply in_app_iff. auto. }
  assert (Ei : forall i, In i (p_input p) -> f i = g i) by auto.
  intros [(rf & Er & H)|[H|[(o & Ho & H)|(o & i & xo & xi & Ho & Hi & Ho' & Hi' & Hle)]]].
  - left. exists rf. split; [exact Er|]. rewrite E; [exact H|]. left. apply in_app_iff. right. rewrite Er. cbn. auto.
  - right. left. exact H.
  - right. right. left. exists o. rewrite Eo by exact Ho. auto.
  - right. right. right. exists o, i, xo, xi. rewrite Eo, Ei by assumption. auto.
Qed.

(** Something newer than all there was is read: the task is out of date. *)
Lemma newer_input f0 f p q x :
  In q (p_input p) -> f q = Some x -> (forall q0 y, f0 q0 = Some y -> (f_time y <= f_time x)%Z) ->
  (forall o, In o (p_output p) -> f o = f0 o) -> stale f p.
Proof.
  intros Hq Ex Hx Ho. right. destruct (p_output p) as [|a os] eqn:Eo; [left; exact Eo|].
  assert (Ea : f a = f0 a) by (apply Ho; cbn; auto).
  destruct (f0 a) as [y|] eqn:Ey.
  - right. right. exists a, q, y, x. rewrite Eo. split; [cbn; auto|]. split; [exact Hq|]. split; [exact Ea|].
    split; [exact Ex|]. exact (Hx a y Ey).
  - right. left. exists a. rewrite Eo. split; [cbn; auto|exact Ea].
Qed.

Section Facts.
Variable st : store.
Variable P : tid -> Prop.
Variable job : tid -> process.
Variable prog : programs.
Hypothesis Hproj : project st P job.

Definition produced (f : fs) (t : tid) : Prop :=
  forall o, In o (p_output (job t)) -> contents f o = Some (prog t (map (contents f) (p_input (job t))) o).

Lemma produced_eq f g t : (forall q, In q (writes (job t)) \/ In q (p_input (job t)) -> f q = g q) ->
  produced g t -> produced f t.
Proof.
  intros E H o Ho. unfold contents at 1. rewrite E.
  - fold (contents g o). rewrite (H o Ho). do 2 f_equal. apply map_ext_in. intros i Hi. unfold contents.
    rewrite E by auto. reflexivity.
  - left. apply in_app_iff. auto.
Qed.

(** [t] reads what [u] writes. *)
Definition needs (t u : tid) : Prop :=
  P t /\ P u /\ exists q, In q (p_input (job t)) /\ In q (writes (job u)).
Definition sound (f : fs) : Prop :=
  forall t, P t -> (forall u, clos_refl_trans tid needs t u -> ~ stale f (job u)) -> produced f t.

(** ** One execution *)
Section Run.
Variable ts : task_set.
Variable filt : string.
Variable iv : tid -> inval_answer.
Variable addr : tid -> nid.
Variable c : config.
Notation sel := (selected st ts filt).
Hypothesis HP : forall t, sel t -> P t.
Hypothesis Hexec : execution_of st ts filt iv addr c.
Variable z : Z.
Variable s : state.
Variable w : nat -> fs.
Notation tr := (trace s).
Notation pr := (fun n => job (node_task (c_dag c) n)).
Hypothesis HR : reachable c z s.
Hypothesis Hw : worked job prog c w tr.
Notation F := (w (List.length tr)).

Lemma split_at k : k <= List.length tr -> tr = firstn k tr ++ skipn k tr.
Proof. intros _. symmetry. apply firstn_skipn. Qed.

Lemma runs k n : In n (running (firstn k tr)) ->
  In (EBegin n) (firstn k tr) /\ (~ exists o, In (EEnd n o) (firstn k tr)) /\
  exists u, sel u /\ n = addr u /\ pr n = job u.
Proof.
  intros Hn. pose proof (eq_sym (firstn_skipn k tr)) as E.
  destruct (exec_facts _ _ _ _ _ _ Hexec) as (Hwf & _).
  destruct (run_node st ts filt iv job addr c Hexec z s HR _ _ n E Hn) as (_ & Hne & Hu).
  split; [|auto]. apply (running_meaning c z s _ _ n Hwf HR E) in Hn. apply Hn.
Qed.

Lemma frame q j k : j <= k -> k <= List.length tr ->
  (forall i, j <= i < k -> forall n, In n (running (firstn i tr)) -> ~ In q (writes (pr n))) -> w k q = w j q.
Proof.
  intros Hjk. induction Hjk as [|k Hjk IH]; intros Hk Hn; [reflexivity|].
  rewrite <- IH; [|lia|intros i Hi; apply Hn; lia].
  destruct (file_eq (w (S k) q) (w k q)) as [E|N]; [exact E|exfalso].
  destruct (nth_error tr k) as [e|] eqn:Ee; [|apply nth_error_None in Ee; lia].
  destruct (Hw k e Ee) as (H & _). destruct (H q N) as (n & Hr & Hq). exact (Hn k ltac:(lia) n Hr Hq).
Qed.

Lemma changed q : F q <> w 0 q -> exists u, sel u /\ In q (writes (job u)) /\ In (EBegin (addr u)) tr.
Proof.
  assert (G : forall k, k <= List.length tr -> w k q <> w 0 q ->
     exists u, sel u /\ In q (writes (job u)) /\ In (EBegin (addr u)) tr).
  { induction k as [|k IH]; intros Hk N; [congruence|].
    destruct (file_eq (w (S k) q) (w k q)) as [E|N'].
    - apply IH; [lia|congruence].
    - destruct (nth_error tr k) as [e|] eqn:Ee; [|apply nth_error_None in Ee; lia].
      destruct (Hw k e Ee) as (H & _). destruct (H q N') as (n & Hr & Hq).
      destruct (runs k n Hr) as (Hb & _ & u & Hu & -> & Ep). cbn beta in Ep. rewrite Ep in Hq. exists u.
      split; [exact Hu|]. split; [exact Hq|]. rewrite <- (firstn_skipn k tr). apply in_app_iff. auto. }
  apply G. lia.
Qed.

Lemma untouched_files t : P t -> (sel t -> ~ In (EBegin (addr t)) tr) ->
  forall q, In q (writes (job t)) -> F q = w 0 q.
Proof.
  intros Pt Hb q Hq. destruct (file_eq (F q) (w 0 q)) as [E|N]; [exact E|exfalso].
  destruct (changed q N) as (u & Hu & Hwq & Hbu).
  assert (u = t) by (eapply (proj1 Hproj); eauto). subst u. exact (Hb Hu Hbu).
Qed.

Lemma dep_runs_after t u : sel t -> clos_trans tid (depends_on st) t u ->
  clos_trans nid (runs_after (c_dag c)) (addr t) (addr u).
Proof.
  intros Ht Hd. pose proof (dep_path _ _ _ _ _ _ Hexec t u Ht Hd) as Hp.
  destruct (exec_facts _ _ _ _ _ _ Hexec) as (_ & Hreq & _).
  clear - Hp Hreq. induction Hp as [x y H|x y v _ IH1 _ IH2]; [apply t_step, Hreq, H|eapply t_trans; eassumption].
Qed.

(** What a task reads does not change from the beginning of its job on. *)
Lemma inputs_fixed t q j k : sel t -> In q (p_input (job t)) -> In (EBegin (addr t)) (firstn j tr) ->
  j <= k -> k <= List.length tr -> w k q = w j q.
Proof.
  intros Ht Hq Hb Hjk Hk. apply frame; [exact Hjk|exact Hk|]. intros i Hi n Hr Hwq.
  destruct (exec_facts _ _ _ _ _ _ Hexec) as (Hwf & _ & _ & _ & _ & Hinj & _).
  destruct (runs i n Hr) as (Hbn & Hne & u & Hu & -> & Ep). cbn beta in Ep. rewrite Ep in Hwq.
  pose proof (dep_runs_after t u Ht (proj2 Hproj t u q (HP t Ht) (HP u Hu) Hq Hwq)) as Hra.
  apply in_split in Hb. destruct Hb as (a1 & a2 & Ea).
  assert (E : tr = a1 ++ EBegin (addr t) :: (a2 ++ skipn j tr)).
  { rewrite <- (firstn_skipn j tr) at 1. rewrite Ea, <- app_assoc. reflexivity. }
  destruct (transitive_order c z s (addr t) (addr u) _ _ Hwf HR Hra E) as (_ & O1 & O2).
  assert (Hpre : forall e, In e a1 -> In e (firstn i tr)).
  { intros e He. assert (Hj : In e (firstn j tr)) by (rewrite Ea; apply in_app_iff; auto).
    replace j with (Nat.min j i) in Hj by lia. rewrite <- firstn_firstn in Hj.
    rewrite <- (firstn_skipn j (firstn i tr)). apply in_app_iff. auto. }
  assert (Hbu : In (EBegin (addr u)) tr) by (rewrite <- (firstn_skipn i tr); apply in_app_iff; auto).
  rewrite E in Hbu. apply in_app_iff in Hbu. destruct Hbu as [Hbu|[Hbu|Hbu]].
  - destruct (O1 Hbu) as (o & Ho). apply Hne. exists o. apply Hpre, Ho.
  - injection Hbu as Hbu. rewrite <- Hbu in Hra.
    assert (Hl : In (ELaunch (addr t)) (s_log s)).
    { apply (begin_launch c _ _ (r_log c z s Hwf HR)). apply trace_in. rewrite E. apply in_app_iff. cbn. auto. }
    apply (launch_acyclic c _ _ (r_log c z s Hwf HR) Hl). exists (addr t). exact Hra.
  - exact (O2 Hbu).
Qed.

Lemma own_fixed t q a o b : sel t -> In q (writes (job t)) -> tr = a ++ EEnd (addr t) o :: b ->
  F q = w (S (List.length a)) q.
Proof.
  intros Ht Hq E. apply frame; [rewrite E, app_length; cbn; lia|lia|]. intros i Hi n Hr Hwq.
  destruct (runs i n Hr) as (_ & Hne & u & Hu & -> & Ep). cbn beta in Ep. rewrite Ep in Hwq.
  assert (u = t) by (eapply (proj1 Hproj); eauto). subst u. apply Hne. exists o.
  rewrite E. rewrite firstn_app. apply in_app_iff. right.
  replace (i - List.length a) with (S (i - S (List.length a))) by lia. cbn. auto.
Qed.

Lemma end_begun t a o b : tr = a ++ EEnd (addr t) o :: b -> In (EBegin (addr t)) a.
Proof.
  intros E. destruct (exec_facts _ _ _ _ _ _ Hexec) as (Hwf & _).
  destruct (trace_at c z s Hwf HR _ _ _ E) as [[He _] _]. cbn [ev_cond] in He. apply in_rev. apply He.
Qed.

Lemma files_fixed t a o b : sel t -> tr = a ++ EEnd (addr t) o :: b ->
  forall q, In q (writes (job t)) \/ In q (p_input (job t)) -> F q = w (S (List.length a)) q.
Proof.
  intros Ht E q [Hq|Hq]; [eapply own_fixed; eassumption|].
  eapply inputs_fixed; [exact Ht|exact Hq| |rewrite E, app_length; cbn; lia|lia].
  rewrite E, firstn_app. apply in_app_iff. left. rewrite firstn_all2 by lia. eapply end_begun, E.
Qed.

Lemma end_at a e b : tr = a ++ e :: b -> nth_error tr (List.length a) = Some e.
Proof. intros E. rewrite E, nth_error_app2 by lia. rewrite Nat.sub_diag. reflexivity. Qed.

Lemma success t o : sel t -> In (EEnd (addr t) o) tr -> job_code o = 0%Z ->
  produced F t /\
  forall q, In q (writes (job t)) -> exists x, F q = Some x /\ forall q0 y, w 0 q0 = Some y -> (f_time y <= f_time x)%Z.
Proof.
  intros Ht He Hc. destruct (exec_facts _ _ _ _ _ _ Hexec) as (Hwf & _ & _ & Hn & _).
  apply in_split in He. destruct He as (a & b & E).
  destruct (Hw _ _ (end_at _ _ _ E)) as (_ & Hok & _).
  destruct (Hok _ _ t eq_refl (eq_sym (proj1 (proj2 (Hn t Ht)))) Hc) as (_ & Hd & seen & Hs & Hout).
  pose proof (files_fixed t a o b Ht E) as Hfix.
  split.
  - apply (produced_eq F (w (S (List.length a)))); [exact Hfix|]. intros q Hq. rewrite (Hout q Hq). do 2 f_equal.
    apply map_ext_in. intros i Hi. destruct (Hs i Hi) as (j & Hj & Hr & ->). unfold contents. f_equal.
    destruct (runs j _ Hr) as (Hb & _). symmetry.
    eapply inputs_fixed; [exact Ht|exact Hi|exact Hb|lia|rewrite E, app_length; cbn; lia].
  - intros q Hq. destruct (Hd q Hq) as (x & Ex & Hx). exists x. split; [|exact Hx].
    rewrite Hfix by auto. exact Ex.
Qed.

Lemma failure t o : sel t -> In (EEnd (addr t) o) tr -> job_code o <> 0%Z ->
  stale F (job t) \/ forall q, In q (writes (job t)) -> F q = w 0 q.
Proof.
  intros Ht He Hc. destruct (exec_facts _ _ _ _ _ _ Hexec) as (Hwf & _ & _ & Hn & _).
  apply in_split in He. destruct He as (a & b & E).
  destruct (Hw _ _ (end_at _ _ _ E)) as (_ & _ & Hbad).
  pose proof (files_fixed t a o b Ht E) as Hfix.
  destruct (Hbad _ _ t eq_refl (eq_sym (proj1 (proj2 (Hn t Ht)))) Hc) as [H|H].
  - left. apply (stale_eq F (w (S (List.length a)))); assumption.
  - right. intros q Hq. rewrite Hfix by auto. apply H, Hq.
Qed.

Lemma sel_dec t : sel t \/ ~ sel t.
Proof.
  destruct (exec_facts _ _ _ _ _ _ Hexec) as (_ & _ & _ & Hn & Hs & _).
  destruct (in_dec Nat.eq_dec t (map (node_task (c_dag c)) (node_ids (c_dag c)))) as [Hi|Hi].
  - left. apply in_map_iff in Hi. destruct Hi as (n & En & Hi). destruct (Hs n Hi) as (v & Hv & ->).
    rewrite (proj1 (proj2 (Hn v Hv))) in En. subst v. exact Hv.
  - right. intros Hv. apply Hi. apply in_map_iff. exists (addr t). split; [apply Hn, Hv|apply Hn, Hv].
Qed.

Section Stopped.
Hypothesis Hrun : running tr = [].

Lemma outcome t : P t ->
  (produced F t /\
   forall q, In q (writes (job t)) -> exists x, F q = Some x /\ forall q0 y, w 0 q0 = Some y -> (f_time y <= f_time x)%Z) \/
  stale F (job t) \/ (forall q, In q (writes (job t)) -> F q = w 0 q).
Proof.
  intros Pt. destruct (sel_dec t) as [Ht|Ht].
  - destruct (how_ended st ts filt iv addr c Hexec z s HR Hrun (addr t)) as [Hb|[(o & He & Hc)|(o & He & Hc)]].
    + right. right. apply untouched_files; auto.
    + left. eapply success; eassumption.
    + right. eapply failure; eassumption.
  - right. right. apply untouched_files; [exact Pt|]. intros H. contradiction.
Qed.

Lemma still t : P t -> (forall u, clos_refl_trans tid needs t u -> ~ stale F (job u)) ->
  (forall q, In q (writes (job t)) -> F q = w 0 q) ->
  forall u, clos_refl_trans tid needs t u ->
    P u /\ forall q, In q (writes (job u)) \/ In q (p_input (job u)) -> F q = w 0 q.
Proof.
  intros Pt Hns Hun.
  assert (Step : forall x y, clos_refl_trans tid needs t x -> needs x y ->
     (forall q, In q (writes (job x)) -> F q = w 0 q) -> forall q, In q (writes (job y)) -> F q = w 0 q).
  { intros x y Htx Hxy Hx. destruct Hxy as (Px & Py & q & Hi & Hq) eqn:En. clear En.
    assert (Hty : clos_refl_trans tid needs t y) by (eapply rt_trans; [exact Htx|apply rt_step, Hxy]).
    destruct (outcome y Py) as [(_ & Hy)|[Hy|Hy]]; [|destruct (Hns y Hty Hy)|exact Hy].
    exfalso. destruct (Hy q Hq) as (v & Ev & Hv). apply (Hns x Htx).
    apply (newer_input (w 0) F (job x) q v Hi Ev Hv). intros o Ho. apply Hx. apply in_app_iff. auto. }
  assert (Own : forall u, clos_refl_trans tid needs t u -> P u /\ forall q, In q (writes (job u)) -> F q = w 0 q).
  { intros u Hu. apply clos_rt_rtn1 in Hu. induction Hu as [|x y Hxy Htx IH]; [auto|].
    split; [apply Hxy|]. apply (Step x y); [apply clos_rtn1_rt, Htx|exact Hxy|apply IH]. }
  intros u Hu. destruct (Own u Hu) as (Pu & Hou). split; [exact Pu|]. intros q [Hq|Hq]; [apply Hou, Hq|].
  destruct (file_eq (F q) (w 0 q)) as [E|N]; [exact E|exfalso].
  destruct (changed q N) as (v & Hv & Hwq & _).
  assert (Huv : needs u v) by (split; [exact Pu|split; [apply HP, Hv|eauto]]).
  apply N. apply (proj2 (Own v ltac:(eapply rt_trans; [exact Hu|apply rt_step, Huv]))). exact Hwq.
Qed.

Lemma run_sound : sound (w 0) -> sound F.
Proof.
  intros HS t Pt Hns. destruct (outcome t Pt) as [(H & _)|[H|Hun]]; [exact H|destruct (Hns t (rt_refl _ _ _) H)|].
  pose proof (still t Pt Hns Hun) as Hst.
  apply (produced_eq F (w 0)); [apply Hst, rt_refl|]. apply (HS t Pt). intros u Hu Hs. apply (Hns u Hu).
  apply (stale_eq F (w 0)); [apply Hst, Hu|exact Hs].
Qed.
End Stopped.

Lemma needs_dep t u : sel t -> needs t u -> sel u /\ clos_refl_trans tid (selected_inval st ts filt) t u.
Proof.
  intros Ht (Pt & Pu & q & Hi & Hq). pose proof (proj2 Hproj t u q Pt Pu Hi Hq) as Hd.
  split.
  - clear - Ht Hd. apply clos_trans_t1n in Hd. induction Hd as [x y H|x y v H _ IHd].
    + eapply sel_dep; eassumption.
    + apply IHd. eapply sel_dep; eassumption.
  - apply deps_inval; assumption.
Qed.

Lemma needs_inval t u : sel t -> clos_refl_trans tid needs t u ->
  sel u /\ clos_refl_trans tid (selected_inval st ts filt) t u.
Proof.
  intros Ht H. apply clos_rt_rtn1 in H. induction H as [|x y Hxy _ IH]; [split; [exact Ht|apply rt_refl]|].
  destruct IH as (Hx & Htx). destruct (needs_dep x y Hx Hxy) as (Hy & Hxy'). split; [exact Hy|].
  eapply rt_trans; eassumption.
Qed.
End Run.

(** ** The life of the project *)
Lemma touch_sound f f' : touched P job f f' -> sound f -> sound f'.
Proof.
  intros Ht HS t Pt Hns.
  assert (Hpu : forall u, clos_refl_trans tid needs t u -> P u).
  { intros u Hu. apply clos_rt_rtn1 in Hu. destruct Hu as [|x y Hxy _]; [exact Pt|apply Hxy]. }
  assert (Own : forall u, clos_refl_trans tid needs t u -> forall q, In q (writes (job u)) -> f' q = f q).
  { intros u Hu q Hq. destruct (file_eq (f' q) (f q)) as [E|N]; [exact E|exfalso].
    destruct (Ht q N) as [(v & Pv & Hv & En)|(Hno & _)]; [|exact (Hno u (Hpu u Hu) Hq)].
    apply (Hns u Hu). apply in_app_iff in Hq. destruct Hq as [Hq|Hq].
    - right. right. left. eauto.
    - destruct (p_retcode (job u)) as [rf|] eqn:Er; [|destruct Hq]. destruct Hq as [<-|[]]. left. exists rf. auto. }
  assert (All : forall u, clos_refl_trans tid needs t u ->
     forall q, In q (writes (job u)) \/ In q (p_input (job u)) -> f' q = f q).
  { intros u Hu q [Hq|Hq]; [eapply Own; eassumption|].
    destruct (file_eq (f' q) (f q)) as [E|N]; [exact E|exfalso].
    destruct (Ht q N) as [(v & Pv & Hv & En)|(Hno & x & Ex & Hx)].
    - apply N. apply (Own v); [|exact Hv]. eapply rt_trans; [exact Hu|]. apply rt_step.
      split; [apply Hpu, Hu|]. split; [exact Pv|eauto].
    - apply (Hns u Hu). apply (newer_input f f' (job u) q x Hq Ex Hx). intros o Ho. apply (Own u Hu).
      apply in_app_iff. auto. }
  apply (produced_eq f' f); [apply All, rt_refl|]. apply (HS t Pt). intros u Hu Hs. apply (Hns u Hu).
  apply (stale_eq f' f); [apply All, Hu|exact Hs].
Qed.

Lemma life_sound f0 f : (forall t, P t -> stale f0 (job t)) -> life st P job prog f0 f -> sound f.
Proof.
  intros H0 H. induction H as [|f f' _ IH Ht|f fmt ts filt addr c z s w _ IH HP He HR Hr E0 Hwk].
  - intros t Pt Hns. destruct (Hns t (rt_refl _ _ _) (H0 t Pt)).
  - eapply touch_sound; eassumption.
  - subst f. eapply run_sound; eassumption.
Qed.

(** ** An execution that ends without failure *)
Section Done.
Variable fmt : Z -> string.
Variable ts : task_set.
Variable filt : string.
Variable addr : tid -> nid.
Variable c : config.
Notation sel := (selected st ts filt).
Variable z : Z.
Variable s : state.
Variable er : exec_record.
Variable w : nat -> fs.
Notation tr := (trace s).
Notation F := (w (List.length tr)).
Hypothesis HP : forall t, sel t -> P t.
Hypothesis Hexec : execution_of st ts filt (process_checks fmt (w 0) job) addr c.
Hypothesis HR : reachable c z s.
Hypothesis Hres : result s = RRecord er.
Hypothesis Hok : forall r, In r (er_runs er) -> r_status r <> FAIL.
Hypothesis Hw : worked job prog c w tr.
Hypothesis Hdet : forall t, sel t -> detectable (w 0) (job t).
Hypothesis Hsound : sound (w 0).

Lemma all_produced t : sel t -> produced F t.
Proof.
  intros Ht. destruct (exec_facts _ _ _ _ _ _ Hexec) as (Hwf & Hra & _ & Hn & _).
  destruct (Hn t Ht) as (Hid & _).
  destruct (finished_recorded c z s Hwf HR er (addr t) Hres Hid) as (r & Hr & En).
  assert (Hgood : forall q, In q (records (trace s)) -> r_status q <> FAIL).
  { intros q Hq. apply Hok. rewrite (finished_runs c z s Hwf HR er Hres). exact Hq. }
  destruct (status_decision c z s r Hwf Hra HR Hr) as (_ & SS & _ & _). cbn zeta in SS. rewrite En in SS.
  destruct (r_status r) eqn:Es.
  - destruct (status_rule c z s r Hwf Hra HR Hr) as (_ & _ & SR & _). cbn zeta in SR. rewrite En in SR.
    destruct (SR (or_introl Es)) as (o & Ho & Hc & _ & Hf).
    eapply success; try eassumption.
    rewrite <- lambda_code, <- Hc. destruct (Z.eq_dec (r_retcode r) 0) as [|N]; [assumption|].
    apply Hf in N. congruence.
  - assert (Hni : ~ task_invalidated st ts filt (process_checks fmt (w 0) job) t).
    { intros Hi. apply (set_invalidated _ _ _ _ _ _ Hexec t Ht) in Hi. apply (proj1 SS eq_refl). exact Hi. }
    assert (Hquiet : forall u, clos_refl_trans tid (selected_inval st ts filt) t u -> sel u -> ~ In (EBegin (addr u)) tr).
    { intros u Htu Hu Hb. destruct (begun_invalidated _ _ _ _ _ _ _ _ _ Hexec HR Hu Hb) as (v & lg & Huv & Hv).
      apply Hni. exists v, lg. split; [eapply rt_trans; eassumption|exact Hv]. }
    apply (produced_eq F (w 0)).
    + intros q [Hq|Hq].
      * eapply untouched_files; try eassumption; [apply HP, Ht|]. intros _. apply Hquiet; [apply rt_refl|exact Ht].
      * destruct (file_eq (F q) (w 0 q)) as [E|N]; [exact E|exfalso].
        destruct (changed ts filt _ addr c Hexec z s w HR Hw q N) as (u & Hu & Hwq & Hb).
        destruct (needs_dep ts filt t u Ht) as (_ & Htu); [split; [apply HP, Ht|split; [apply HP, Hu|eauto]]|].
        exact (Hquiet u Htu Hu Hb).
    + apply (Hsound t (HP t Ht)). intros u Hu Hs. destruct (needs_inval ts filt t u Ht Hu) as (Hsu & Htu).
      apply Hni. exists u, (iv_log (is_invalidated fmt (w 0) (job u))). split; [exact Htu|].
      unfold process_checks. rewrite (stale_noticed fmt (w 0) (job u) (Hdet u Hsu) Hs). reflexivity.
  - exfalso. destruct (root_cause c z s r Hwf HR Hr Es) as (b & rb & o & _ & Hb & _ & Eb & _). exact (Hgood rb Hb Eb).
  - exfalso. exact (Hgood r Hr Es).
Qed.

(** Induction along the order of the records. *)
Lemma by_records (Q : nid -> Prop) :
  (forall a, (forall b, clos_trans nid (runs_after (c_dag c)) a b -> Q b) -> Q a) ->
  forall k log n, List.length log <= k -> log_ok c log -> recorded_l log n -> Q n.
Proof.
  intros Hstep. induction k as [|k IH]; intros log n Hk L (r & Hr & <-).
  - destruct log; [|cbn in Hk; lia]. destruct Hr.
  - destruct (rec_at c _ r L Hr) as (l1 & e & x & l2 & El & He & _). cbn [ev_cond] in He.
    destruct He as (_ & _ & _ & _ & Har & _).
    assert (L2 : log_ok c l2) by (rewrite El in L; apply log_ok_app in L; inversion L; assumption).
    apply Hstep. intros b Hb. apply (IH l2 b).
    + rewrite El, app_length in Hk. cbn in Hk. lia.
    + exact L2.
    + apply clos_trans_t1n in Hb. destruct Hb as [b Hb|m b Hm Hb]; [apply Har, Hb|].
      eapply recorded_closed; [exact L2|apply clos_t1n_trans, Hb|apply Har, Hm].
Qed.

Lemma all_wanted : forall t, sel t -> forall o, In o (p_output (job t)) -> wanted P job prog F o (contents F o).
Proof.
  destruct (exec_facts _ _ _ _ _ _ Hexec) as (Hwf & _ & _ & Hn & Hs & Hinj & _).
  assert (G : forall n, In n (node_ids (c_dag c)) ->
     forall t, sel t -> n = addr t -> forall o, In o (p_output (job t)) -> wanted P job prog F o (contents F o)).
  { intros n Hid.
    destruct (finished_recorded c z s Hwf HR er n Hres Hid) as (r & Hr & En).
    apply (by_records (fun n => forall t, sel t -> n = addr t -> forall o, In o (p_output (job t)) -> wanted P job prog F o (contents F o))
             ) with (k := List.length (s_log s)) (log := s_log s); [|lia|apply (r_log c z s Hwf HR)|].
    2:{ exists r. split; [|exact En]. rewrite recs_trace. exact Hr. }
    clear n Hid r Hr En. intros a IH t Ht -> o Ho. rewrite (all_produced t Ht o Ho).
    apply (wanted_output P job prog F t o); [apply HP, Ht|exact Ho|].
    assert (All : forall l, (forall i, In i l -> In i (p_input (job t))) -> wanted_all P job prog F l (map (contents F) l)).
    { induction l as [|i l IHl]; intros Hl; [constructor|]. cbn [map]. constructor; [|apply IHl; intros; apply Hl; cbn; auto].
      assert (Hi : In i (p_input (job t))) by (apply Hl; cbn; auto).
      destruct (List.Exists_dec (fun n => In i (p_output (job (node_task (c_dag c) n)))) (node_ids (c_dag c))) as [H|H].
      - intros n. apply in_dec, String.string_dec.
      - apply Exists_exists in H. destruct H as (n & Hin & H). destruct (Hs n Hin) as (u & Hu & ->).
        rewrite (proj1 (proj2 (Hn u Hu))) in H.
        apply (IH (addr u)) with u; [|exact Hu|reflexivity|exact H].
        apply (dep_runs_after ts filt _ addr c Hexec); [exact Ht|].
        apply (proj2 Hproj t u i (HP t Ht) (HP u Hu) Hi). apply in_app_iff. auto.
      - apply wanted_source. intros u Pu Hout. apply H. apply Exists_exists.
        assert (Hu : sel u).
        { apply (needs_dep ts filt t u Ht). split; [apply HP, Ht|]. split; [exact Pu|]. exists i. split; [exact Hi|].
          apply in_app_iff. auto. }
        exists (addr u). split; [apply Hn, Hu|]. rewrite (proj1 (proj2 (Hn u Hu))). exact Hout. }
    apply All. auto. }
  intros t Ht. apply (G (addr t)); [apply Hn, Ht|exact Ht|reflexivity].
Qed.
End Done.

(** ** What is wanted is determined by the sources *)
Scheme wanted_mind := Induction for wanted Sort Prop
  with wanted_all_mind := Induction for wanted_all Sort Prop.

Lemma wanted_same f g :
  (forall q, (exists t, P t /\ In q (p_input (job t))) -> (forall t, P t -> ~ In q (p_output (job t))) ->
     contents f q = contents g q) ->
  forall q a, wanted P job prog f q a ->
    ((exists t, P t /\ In q (p_input (job t))) \/ (exists t, P t /\ In q (p_output (job t)))) ->
    forall b, wanted P job prog g q b -> a = b.
Proof.
  intros Hsame q a H.
  apply (wanted_mind P job prog f
    (fun q a _ => ((exists t, P t /\ In q (p_input (job t))) \/ (exists t, P t /\ In q (p_output (job t)))) ->
                  forall b, wanted P job prog g q b -> a = b)
    (fun qs cs _ => (forall q, In q qs -> exists t, P t /\ In q (p_input (job t))) ->
                  forall ds, wanted_all P job prog g qs ds -> cs = ds)); [| | | |exact H]; clear q a H.
  - intros q Hno Hq b Hb. inversion Hb as [q' Hno' E1 E2|t' q' cs Pt Ho Ha E1 E2]; subst.
    + apply Hsame; [|exact Hno]. destruct Hq as [Hq|(t & Pt & Ho)]; [exact Hq|destruct (Hno t Pt Ho)].
    + destruct (Hno t' Pt Ho).
  - intros t q cs Pt Ho Ha IH Hq b Hb. inversion Hb as [q' Hno' E1 E2|t' q' cs' Pt' Ho' Ha' E1 E2]; subst.
    + destruct (Hno' t Pt Ho).
    + assert (t' = t) by (eapply (proj1 Hproj); [exact Pt'|exact Pt| |]; apply in_app_iff; eauto). subst t'.
      rewrite (IH (fun q Hq => ex_intro _ t (conj Pt Hq)) _ Ha'). reflexivity.
  - intros _ ds Hd. inversion Hd. reflexivity.
  - intros q a qs cs Hq IHq Hqs IHqs Hin ds Hd. inversion Hd; subst. f_equal.
    + apply IHq; [left; apply Hin; cbn; auto|assumption].
    + apply IHqs; [intros; apply Hin; cbn; auto|assumption].
Qed.
End Facts.

(** ** Closed forms *)
Theorem content_wanted : forall st P job prog f0 f fmt ts filt addr c z s er w,
  project st P job -> (forall t, P t -> stale f0 (job t)) -> life st P job prog f0 f ->
  (forall t, selected st ts filt t -> P t) ->
  execution_of st ts filt (process_checks fmt f job) addr c -> reachable c z s -> result s = RRecord er ->
  (forall r, In r (er_runs er) -> r_status r <> FAIL) ->
  (forall t, selected st ts filt t -> detectable f (job t)) ->
  w 0 = f -> worked job prog c w (trace s) ->
  forall t o, selected st ts filt t -> In o (p_output (job t)) ->
    wanted P job prog (w (List.length (trace s))) o (contents (w (List.length (trace s))) o).
Proof.
  intros st P job prog f0 f fmt ts filt addr c z s er w Hp H0 Hl HP He HR Hres Hok Hdet <- Hw t o Ht Ho.
  eapply all_wanted; try eassumption. eapply life_sound; eassumption.
Qed.

Theorem content_determined : forall st P job prog f g q a b,
  project st P job ->
  (forall i, (exists t, P t /\ In i (p_input (job t))) -> (forall t, P t -> ~ In i (p_output (job t))) ->
     contents f i = contents g i) ->
  (exists t, P t /\ In q (p_output (job t))) ->
  wanted P job prog f q a -> wanted P job prog g q b -> a = b.
Proof.
  intros st P job prog f g q a b Hp Hsame Hq Ha Hb.
  eapply (wanted_same st P job prog Hp f g); eauto.
Qed.

(** Two lives of a project that end with the same sources. *)
Theorem content_same : forall st P job prog f0 g0 f g fmt1 ts1 filt1 addr1 c1 z1 s1 er1 w1 fmt2 ts2 filt2 addr2 c2 z2 s2 er2 w2,
  project st P job -> (forall t, P t -> stale f0 (job t)) -> (forall t, P t -> stale g0 (job t)) ->
  life st P job prog f0 f -> life st P job prog g0 g ->
  (forall t, selected st ts1 filt1 t \/ selected st ts2 filt2 t -> P t) ->
  execution_of st ts1 filt1 (process_checks fmt1 f job) addr1 c1 -> reachable c1 z1 s1 -> result s1 = RRecord er1 ->
  (forall r, In r (er_runs er1) -> r_status r <> FAIL) -> (forall t, selected st ts1 filt1 t -> detectable f (job t)) ->
  w1 0 = f -> worked job prog c1 w1 (trace s1) ->
  execution_of st ts2 filt2 (process_checks fmt2 g job) addr2 c2 -> reachable c2 z2 s2 -> result s2 = RRecord er2 ->
  (forall r, In r (er_runs er2) -> r_status r <> FAIL) -> (forall t, selected st ts2 filt2 t -> detectable g (job t)) ->
  w2 0 = g -> worked job prog c2 w2 (trace s2) ->
  (forall i, (exists t, P t /\ In i (p_input (job t))) -> (forall t, P t -> ~ In i (p_output (job t))) ->
     contents (w1 (List.length (trace s1))) i = contents (w2 (List.length (trace s2))) i) ->
  forall t o, selected st ts1 filt1 t -> selected st ts2 filt2 t -> In o (p_output (job t)) ->
    contents (w1 (List.length (trace s1))) o = contents (w2 (List.length (trace s2))) o.
Proof.
  intros st P job prog f0 g0 f g fmt1 ts1 filt1 addr1 c1 z1 s1 er1 w1 fmt2 ts2 filt2 addr2 c2 z2 s2 er2 w2
    Hp H0 G0 Hf Hg HP He1 HR1 Hr1 Ho1 Hd1 E1 Hw1 He2 HR2 Hr2 Ho2 Hd2 E2 Hw2 Hsame t o Ht1 Ht2 Ho.
  eapply (content_determined st P job prog).
  - exact Hp.
  - exact Hsame.
  - exists t. split; [apply HP; auto|exact Ho].
  - exact (content_wanted st P job prog f0 f fmt1 ts1 filt1 addr1 c1 z1 s1 er1 w1 Hp H0 Hf
             (fun x Hx => HP x (or_introl Hx)) He1 HR1 Hr1 Ho1 Hd1 E1 Hw1 t o Ht1 Ho).
  - exact (content_wanted st P job prog g0 g fmt2 ts2 filt2 addr2 c2 z2 s2 er2 w2 Hp G0 Hg
             (fun x Hx => HP x (or_intror Hx)) He2 HR2 Hr2 Ho2 Hd2 E2 Hw2 t o Ht2 Ho).
Qed.

(** Runs of process jobs. *)
Lemma run_outputs p e f0 o f1 : process_run p e f0 = (o, f1) -> job_code o = 0%Z ->
  (forall rf, p_retcode p = Some rf -> ~ In rf (p_output p)) ->
  forall q, In q (p_output p) -> f1 q = sb_fs e q.
Proof.
  intros H Hc Hrf q Hq. unfold process_run, ec_set in H.
  destruct (ec_value (sb_start e) =? 0)%Z eqn:E1; cbn [negb] in H.
  2:{ inversion H; subst. cbn in Hc. apply Z.eqb_neq in E1. contradiction. }
  destruct (ec_value (sb_drain e) =? 0)%Z eqn:E2; cbn [negb] in H; [|congruence].
  destruct (sb_exit e) as [code ec]. destruct (ec_value ec =? 0)%Z eqn:E3; cbn [negb] in H; [|congruence].
  destruct (p_retcode p) as [rf|]; [|congruence].
  assert (N : String.eqb q rf = false).
  { destruct (String.eqb_spec q rf) as [E|N]; [|reflexivity]. rewrite E in Hq. destruct (Hrf rf eq_refl Hq). }
  destruct (sb_remove_throws e); [congruence|].
  destruct (sb_can_create e); inversion H; subst; unfold fs_set; rewrite !N; reflexivity.
Qed.
Lemma run_failed p e f0 rf o f1 : process_run p e f0 = (o, f1) -> job_code o <> 0%Z ->
  p_retcode p = Some rf -> sb_remove_throws e = None -> is_int (fst (sb_exit e)) ->
  ec_value (sb_drain e) = 0%Z -> ec_value (snd (sb_exit e)) = 0%Z ->
  stale f1 p \/ f1 = f0.
Proof.
  intros H Hc Hrf Ht Hi Hd Hw.
  destruct (ec_value (sb_start e) =? 0)%Z eqn:E1.
  - left. left. apply Z.eqb_eq in E1. eapply failed_run_noted with (code := fst (sb_exit e)); eauto.
    + split; [exact E1|]. auto.
    + intros E. apply Hc. unfold process_run, ec_set in H. rewrite E1, Hd in H.
      destruct (sb_exit e) as [code ec]. cbn [fst snd] in *. rewrite Hw, Hrf, Ht in H. cbn in H. inversion H. exact E.
  - right. unfold process_run, ec_set in H. rewrite E1 in H. cbn in H. congruence.
Qed.
