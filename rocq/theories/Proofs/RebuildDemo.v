(** A concrete file history, for the cases of Properties/Rebuilds.v. *)
From Coq Require Import String Lia.
From Verif Require Import Model.Common Model.Records Model.Jobs Model.TaskSet Model.Dag
     Model.Sched Model.Exec Model.Text Model.Process Spec.Graph Spec.Trace Spec.Files Proofs.DemoFacts.
Open Scope string_scope.
Open Scope nat_scope.
Open Scope list_scope.

(** Each job that ends with code 0 writes all its files at that moment; the n-th event is at
    time n. *)
Definition write_all (now : Z) (p : process) (f : fs) : fs :=
  fold_left (fun g q => fs_set g q (Some (File now "0" true))) (writes p) f.
Definition made_b (f : fs) (p : process) : bool :=
  match p_retcode p with
  | Some rf => match f rf with Some x => (read_retcode x =? 0)%Z | None => false end
  | None => true
  end &&
  forallb (fs_exists f) (p_output p) &&
  forallb (fun o => forallb (fun i => match f o, f i with
                                      | Some xo, Some xi => (f_time xi <? f_time xo)%Z
                                      | _, _ => true
                                      end) (p_input p)) (p_output p).

Fixpoint play (pr : nid -> process) (pre : list event) (tr : list event) (f : fs) : option fs :=
  match tr with
  | [] => Some f
  | e :: r =>
      match e with
      | EEnd n o =>
          if (job_code o =? 0)%Z then
            let f' := write_all (Z.of_nat (List.length pre)) (pr n) f in
            if mem n (running pre) && made_b f' (pr n) then play pr (pre ++ [e]) r f' else None
          else play pr (pre ++ [e]) r f
      | _ => play pr (pre ++ [e]) r f
      end
  end.

Lemma made_b_made f p : made_b f p = true -> made f p.
Proof.
  unfold made_b. rewrite !andb_true_iff, !forallb_forall. intros [[H1 H2] H3]. split; [|split].
  - intros rf E. rewrite E in H1. destruct (f rf) as [x|]; [|discriminate]. exists x.
    apply Z.eqb_eq in H1. auto.
  - intros o Ho. specialize (H2 o Ho). unfold fs_exists in H2. destruct (f o); congruence.
  - intros o i xo xi Ho Hi Eo Ei. specialize (H3 o Ho). rewrite forallb_forall in H3. specialize (H3 i Hi).
    rewrite Eo, Ei in H3. apply Z.ltb_lt in H3. exact H3.
Qed.

Lemma write_all_writes now p f q : write_all now p f q <> f q -> In q (writes p).
Proof.
  unfold write_all. revert f. induction (writes p) as [|w l IH]; intros f; [cbn; congruence|].
  cbn [fold_left]. intros H. destruct (String.eqb_spec q w) as [->|N]; [left; reflexivity|]. right.
  apply (IH (fs_set f w (Some (File now "0" true)))). intros E. apply H. rewrite E. unfold fs_set.
  destruct (String.eqb_spec q w); [contradiction|reflexivity].
Qed.

Lemma play_history pr f0 tr : forall pre f g,
  file_history pr f0 pre f -> play pr pre tr f = Some g -> file_history pr f0 (pre ++ tr) g.
Proof.
  induction tr as [|e tr IH]; intros pre f g H E.
  - rewrite app_nil_r. inversion E. subst. exact H.
  - replace (pre ++ e :: tr) with ((pre ++ [e]) ++ tr) by (rewrite <- app_assoc; reflexivity).
    assert (Stay : (forall n o, e = EEnd n o -> job_code o <> 0%Z) -> file_history pr f0 (pre ++ [e]) f).
    { intros Hn. apply (fh_event _ _ _ _ f); [exact H|congruence|]. intros n o He Hc. destruct (Hn n o He Hc). }
    cbn [play] in E. destruct e; try (eapply IH; [apply Stay; congruence|exact E]).
    destruct (job_code o =? 0)%Z eqn:Ec.
    + destruct (mem n (running pre)) eqn:Em; [|discriminate].
      destruct (made_b _ (pr n)) eqn:Eb in E; [|discriminate]. cbn [andb] in E.
      eapply IH; [|exact E]. apply (fh_event _ _ _ _ f); [exact H| |].
      * intros q Hq. exists n. split; [apply mem_in, Em|]. eapply write_all_writes, Hq.
      * intros m o' He _. inversion He; subst. apply made_b_made, Eb.
    + eapply IH; [apply Stay|exact E]. intros m o' He. inversion He; subst. apply Z.eqb_neq, Ec.
Qed.

Definition play_end (pr : nid -> process) (tr : list event) (f0 : fs) : fs :=
  match play pr [] tr f0 with Some f => f | None => f0 end.
Lemma play_end_history pr f0 tr :
  match play pr [] tr f0 with Some _ => true | None => false end = true -> file_history pr f0 tr (play_end pr tr f0).
Proof.
  intros H. unfold play_end. destruct (play pr [] tr f0) as [f|] eqn:E; [|discriminate].
  apply (play_history pr f0 tr [] f0 f (fh_start _ _) E).
Qed.
