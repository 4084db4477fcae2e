(** Building in parts. *)
From Coq Require Import Lia String Relations.
From Verif Require Import Model.Common Model.Records Model.Jobs Model.TaskSet Model.Dag
     Model.Sched Model.Exec Model.ExecSet Model.Text Model.Process
     Spec.Graph Spec.Trace Spec.Tasks Spec.Files Spec.Parts
     Proofs.TaskFacts Proofs.BuildFacts Proofs.BuildProps Proofs.TraceFacts Proofs.ExecInv Proofs.LogFacts Proofs.ExecProps Proofs.ExecProps2
     Proofs.ExecProps3 Proofs.ExecProps4 Proofs.SetExec Proofs.ProcessFacts Proofs.Rebuild.
Open Scope string_scope.
Open Scope nat_scope.
Open Scope list_scope.

Lemma begun_invalidated st ts filt iv addr c z s t : execution_of st ts filt iv addr c -> reachable c z s ->
  selected st ts filt t -> In (EBegin (addr t)) (trace s) -> task_invalidated st ts filt iv t.
Proof.
  intros He HR Ht Hb. destruct (exec_facts _ _ _ _ _ _ He) as (Hwf & _).
  apply (set_invalidated _ _ _ _ _ _ He t Ht).
  apply trace_in in Hb. apply (begin_launch c _ _ (r_log c z s Hwf HR)) in Hb.
  destruct (log_in c _ _ (r_log c z s Hwf HR) Hb) as (l1 & l2 & _ & [Hx _] & _). cbn [ev_cond] in Hx. apply Hx.
Qed.

(** Files that no executed task writes stay. *)
Lemma unwritten_stays st ts filt iv job addr c z s f f' q :
  execution_of st ts filt iv addr c -> reachable c z s ->
  file_history (fun n => job (node_task (c_dag c) n)) f (trace s) f' ->
  (forall u, selected st ts filt u -> In (EBegin (addr u)) (trace s) -> ~ In q (writes (job u))) -> f' q = f q.
Proof.
  intros He HR HH Hq. change (trace s) with ([] ++ trace s) in HH.
  destruct (history_frame _ _ _ _ _ HH) as (g & Hg & Hfr).
  assert (Eg : g = f).
  { inversion Hg as [E|tr e x y _ _ _ E]; [reflexivity|]. destruct tr; discriminate. }
  subst g. apply Hfr. intros n b1 b2 Eb Hr Hw. cbn [app] in Hr.
  destruct (exec_facts _ _ _ _ _ _ He) as (Hwf & _ & _ & Hn & Hs & _).
  apply (running_meaning c z s b1 b2 n Hwf HR Eb) in Hr. destruct Hr as [Hr _].
  assert (Hb : In (EBegin n) (trace s)) by (rewrite Eb; apply in_app_iff; auto).
  pose proof Hb as Hb0. apply in_split in Hb0. destruct Hb0 as (p1 & p2 & Ep).
  destruct (at_most_once c z s p1 n p2 Hwf HR Ep) as (Hid & _).
  destruct (Hs n Hid) as (u & Hu & ->). cbn beta in Hw. rewrite (proj1 (proj2 (Hn u Hu))) in Hw.
  exact (Hq u Hu Hb Hw).
Qed.

Lemma inval_in_part st b t u : self_contained st b -> in_part st b t ->
  forall ts2 filt2, clos_refl_trans tid (selected_inval st ts2 filt2) t u -> in_part st b u.
Proof.
  intros Hc Ht ts2 filt2 H. apply clos_rt_rt1n in H. induction H as [|x y w (_ & _ & H) _ IH]; [exact Ht|].
  apply IH. destruct H as [H|H]; [eapply sel_dep; eassumption|exact (Hc _ _ Ht H)].
Qed.

Section Parts.
Variable st : store.
Variable job : tid -> process.
Variable f0 : fs.
Variable P : tid -> Prop.
Hypothesis Hfiles : files_declared st P f0 job.
Hypothesis Hdet : forall t, P t -> detectable f0 (job t).
Hypothesis Hout : forall t, P t -> p_output (job t) <> [].

(** Everything done so far is made, each task was executed only where it came first, and what
    no part contains is untouched. *)
Lemma parts_inv bs f : built_in_parts st job f0 bs f ->
  (forall t, in_some_part st bs t -> P t) -> (forall b, In b bs -> self_contained st b) ->
  (forall t, in_some_part st bs t -> made f (job t) /\ forall i, In i (p_input (job t)) -> f i <> None) /\
  (forall q, (forall t, in_some_part st bs t -> ~ In q (writes (job t))) -> f q = f0 q) /\
  (forall l1 b l2 b' t, bs = l1 ++ b :: l2 -> In b' l1 -> in_part st b' t -> in_part st b t -> ~ executed_in b t).
Proof.
  induction 1 as [|bs f fmt ts filt addr c z s er f' HB IH He HR Hres Hok HH]; intros HP Hself.
  - split; [intros t (b & [] & _)|]. split; [reflexivity|]. intros [|x l1] b l2 b' t E; discriminate E.
  - set (b := Part ts filt addr (trace s)) in *.
    assert (HPb : forall t, in_part st b t -> P t).
    { intros t Ht. apply HP. exists b. split; [apply in_app_iff; cbn; auto|exact Ht]. }
    assert (HPbs : forall t, in_some_part st bs t -> P t).
    { intros t (b' & Hb' & Ht). apply HP. exists b'. split; [apply in_app_iff; auto|exact Ht]. }
    destruct IH as (IM & IU & IE); [exact HPbs|intros b' Hb'; apply Hself, in_app_iff; auto|].
    destruct Hfiles as (D1 & D2 & D3).
    (* Nothing done before is executed. *)
    assert (Hidle : forall b' t, In b' bs -> in_part st b' t -> in_part st b t -> ~ executed_in b t).
    { intros b' t Hb' Ht' Ht Hx. pose proof (begun_invalidated _ _ _ _ _ _ z s t He HR Ht Hx) as (u & lg & Htu & Hu).
      assert (Hu' : in_part st b' u) by (eapply inval_in_part; [apply Hself, in_app_iff; left; exact Hb'|exact Ht'|exact Htu]).
      assert (Hs' : in_some_part st bs u) by (exists b'; auto).
      destruct (IM u Hs') as (M & Mi). pose proof (HPbs u Hs') as Pu.
      unfold process_checks in Hu. rewrite (made_not_noticed fmt f (job u) (Hout u Pu)) in Hu; [discriminate| |exact M|exact Mi].
      destruct (Hdet u Pu) as [H|[H _]]; [destruct (Hout u Pu H)|exact H]. }
    (* What this execution needs. *)
    assert (Hdf : declares_files st ts filt f job).
    { split; [|split].
      - intros t u q Ht Hu. apply D1; [apply (HPb t Ht)|apply (HPb u Hu)].
      - intros t u q Ht Hu. apply D2; [apply (HPb t Ht)|apply (HPb u Hu)].
      - intros t q Ht Hq Hno. rewrite IU.
        + apply (D3 t q (HPb t Ht) Hq). intros u Pu Hw.
          apply (Hno u); [|exact Hw]. pose proof (D2 t u q (HPb t Ht) Pu Hq Hw) as Hd.
          clear - Ht Hd. apply clos_trans_t1n in Hd. induction Hd as [x y H|x y w H _ IHd].
          * eapply sel_dep; eassumption.
          * apply IHd. eapply sel_dep; eassumption.
        + intros u Hu Hw. apply (Hno u); [|exact Hw]. pose proof (D2 t u q (HPb t Ht) (HPbs u Hu) Hq Hw) as Hd.
          clear - Ht Hd. apply clos_trans_t1n in Hd. induction Hd as [x y H|x y w H _ IHd].
          * eapply sel_dep; eassumption.
          * apply IHd. eapply sel_dep; eassumption. }
    assert (Hdec : forall t, P t -> (exists o, In o (p_output (job t)) /\ f o <> f0 o) ->
                     (forall u, in_some_part st bs u -> u <> t) -> False).
    { intros t Pt (o & Ho & Hne) Hnot. apply Hne, IU. intros u Hu Hw. apply (Hnot u Hu).
      eapply D1; [apply HPbs, Hu|exact Pt|exact Hw|]. apply in_app_iff. auto. }
    assert (Hdetf : forall t, selected st ts filt t -> detectable f (job t)).
    { intros t Ht. pose proof (HPb t Ht) as Pt. destruct (Hdet t Pt) as [H|(H1 & H2)]; [left; exact H|right].
      split; [exact H1|]. intros (m & Hm & Em) o x Ho Ex.
      assert (Hnot : forall u, in_some_part st bs u -> u <> t).
      { intros u Hu ->. destruct (IM t Hu) as ((_ & M2 & _) & _). exact (M2 m Hm Em). }
      assert (Hsame : forall o', In o' (p_output (job t)) -> f o' = f0 o').
      { intros o' Ho'. destruct (file_eq (f o') (f0 o')) as [|N]; [assumption|]. exfalso. eapply Hdec; eauto. }
      apply (H2 (ex_intro _ m (conj Hm (eq_trans (eq_sym (Hsame m Hm)) Em))) o x Ho). rewrite <- Hsame; assumption. }
    pose proof (rebuild_made fmt st ts filt job f addr c z s er f' He Hdf Hdetf HR Hres Hok HH) as Hmade.
    split; [|split].
    + intros t (b' & Hb' & Ht). apply in_app_iff in Hb'. destruct Hb' as [Hb'|[<-|[]]]; [|exact (Hmade t Ht)].
      assert (Hs' : in_some_part st bs t) by (exists b'; auto).
      destruct (IM t Hs') as (M & Mi).
      assert (Hkeep : forall q, In q (writes (job t)) \/ In q (p_input (job t)) -> f' q = f q).
      { intros q Hq. eapply unwritten_stays; [exact He|exact HR|exact HH|]. intros u Hu Hx Hw.
        apply (Hidle b' u Hb'); [|exact Hu|exact Hx]. destruct Hq as [Hq|Hq].
        - assert (u = t) by (eapply D1; [apply (HPb u Hu)|apply HPbs, Hs'|exact Hw|exact Hq]). subst u. exact Ht.
        - pose proof (D2 t u q (HPbs t Hs') (HPb u Hu) Hq Hw) as Hd. unfold in_part in *.
          clear - Ht Hd. apply clos_trans_t1n in Hd. induction Hd as [x y H|x y w H _ IHd].
          + eapply sel_dep; eassumption.
          + apply IHd. eapply sel_dep; eassumption. }
      split; [apply (made_eq f' f); [exact Hkeep|exact M]|].
      intros i Hi. rewrite Hkeep by auto. apply Mi, Hi.
    + intros q Hq. rewrite <- IU.
      * eapply unwritten_stays; [exact He|exact HR|exact HH|]. intros u Hu _. apply Hq. exists b.
        split; [apply in_app_iff; cbn; auto|exact Hu].
      * intros t (b' & Hb' & Ht). apply Hq. exists b'. split; [apply in_app_iff; auto|exact Ht].
    + intros l1 b1 l2 b' t E Hb' Ht' Ht. destruct l2 as [|y l2] using rev_ind.
      * apply app_inj_tail in E. destruct E as [<- <-]. eapply Hidle; eassumption.
      * clear IHl2. rewrite app_comm_cons, app_assoc in E. apply app_inj_tail in E. destruct E as [E _].
        eapply IE; eassumption.
Qed.
End Parts.

Lemma parts_made : forall st job f0 bs f,
  built_in_parts st job f0 bs f -> (forall b, In b bs -> self_contained st b) ->
  files_declared st (in_some_part st bs) f0 job ->
  (forall t, in_some_part st bs t -> detectable f0 (job t)) ->
  (forall t, in_some_part st bs t -> p_output (job t) <> []) ->
  forall t, in_some_part st bs t -> made f (job t) /\ forall i, In i (p_input (job t)) -> f i <> None.
Proof.
  intros st job f0 bs f HB Hs Hf Hd Ho. apply (parts_inv st job f0 (in_some_part st bs) Hf Hd Ho bs f HB); auto.
Qed.

Lemma parts_once : forall st job f0 bs f,
  built_in_parts st job f0 bs f -> (forall b, In b bs -> self_contained st b) ->
  files_declared st (in_some_part st bs) f0 job ->
  (forall t, in_some_part st bs t -> detectable f0 (job t)) ->
  (forall t, in_some_part st bs t -> p_output (job t) <> []) ->
  forall l1 b l2 b' t, bs = l1 ++ b :: l2 -> In b' l1 -> in_part st b' t -> in_part st b t -> ~ executed_in b t.
Proof.
  intros st job f0 bs f HB Hs Hf Hd Ho. apply (parts_inv st job f0 (in_some_part st bs) Hf Hd Ho bs f HB); auto.
Qed.

(** Two parts, the first one of any kind: only tasks outside of it can cause work in it. *)
Lemma second_part : forall fmt st ts filt job f0 addr c z s er f1 fmt2 ts2 filt2 addr2 c2 z2 s2 t,
  execution_of st ts filt (process_checks fmt f0 job) addr c ->
  declares_files st ts filt f0 job -> (forall t, selected st ts filt t -> detectable f0 (job t)) ->
  reachable c z s -> result s = RRecord er -> (forall r, In r (er_runs er) -> r_status r <> FAIL) ->
  file_history (fun n => job (node_task (c_dag c) n)) f0 (trace s) f1 ->
  execution_of st ts2 filt2 (process_checks fmt2 f1 job) addr2 c2 -> reachable c2 z2 s2 ->
  selected st ts2 filt2 t -> In (EBegin (addr2 t)) (trace s2) ->
  exists u, clos_refl_trans tid (selected_inval st ts2 filt2) t u /\
            (~ selected st ts filt u \/ p_output (job u) = []).
Proof.
  intros fmt st ts filt job f0 addr c z s er f1 fmt2 ts2 filt2 addr2 c2 z2 s2 t He Hd Hdet HR Hres Hok HH He2 HR2 Ht Hb.
  destruct (begun_invalidated _ _ _ _ _ _ _ _ _ He2 HR2 Ht Hb) as (u & lg & Htu & Hu).
  exists u. split; [exact Htu|].
  destruct (exec_facts _ _ _ _ _ _ He) as (_ & _ & _ & Hn & Hs & _).
  destruct (in_dec Nat.eq_dec u (map (node_task (c_dag c)) (node_ids (c_dag c)))) as [Hi|Hi].
  - right. apply in_map_iff in Hi. destruct Hi as (n & En & Hi). destruct (Hs n Hi) as (v & Hv & ->).
    rewrite (proj1 (proj2 (Hn v Hv))) in En. subst v.
    destruct (p_output (job u)) as [|o os] eqn:Eo; [reflexivity|exfalso].
    destruct (rebuild_made fmt st ts filt job f0 addr c z s er f1 He Hd Hdet HR Hres Hok HH u Hv) as (M & Mi).
    unfold process_checks in Hu. rewrite (made_not_noticed fmt2 f1 (job u)) in Hu; [discriminate|congruence| |exact M|exact Mi].
    destruct (Hdet u Hv) as [H|[H _]]; [congruence|exact H].
  - left. intros Hv. apply Hi. apply in_map_iff. exists (addr u). split; [apply Hn, Hv|apply Hn, Hv].
Qed.
