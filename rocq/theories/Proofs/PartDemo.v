(** Concrete file histories that start at a given time, for the cases of Properties/Parts.v. *)
From Coq Require Import String Lia.
From Verif Require Import Model.Common Model.Records Model.Jobs Model.TaskSet Model.Dag
     Model.Sched Model.Exec Model.Text Model.Process Spec.Graph Spec.Trace Spec.Files Proofs.DemoFacts Proofs.RebuildDemo.
Open Scope string_scope.
Open Scope nat_scope.
Open Scope list_scope.

Fixpoint play_at (base : Z) (pr : nid -> process) (pre : list event) (tr : list event) (f : fs) : option fs :=
  match tr with
  | [] => Some f
  | e :: r =>
      match e with
      | EEnd n o =>
          if (job_code o =? 0)%Z then
            let f' := write_all (base + Z.of_nat (List.length pre)) (pr n) f in
            if mem n (running pre) && made_b f' (pr n) then play_at base pr (pre ++ [e]) r f' else None
          else play_at base pr (pre ++ [e]) r f
      | _ => play_at base pr (pre ++ [e]) r f
      end
  end.

Lemma play_at_history base pr f0 tr : forall pre f g,
  file_history pr f0 pre f -> play_at base pr pre tr f = Some g -> file_history pr f0 (pre ++ tr) g.
Proof.
  induction tr as [|e tr IH]; intros pre f g H E.
  - rewrite app_nil_r. inversion E. subst. exact H.
  - replace (pre ++ e :: tr) with ((pre ++ [e]) ++ tr) by (rewrite <- app_assoc; reflexivity).
    assert (Stay : (forall n o, e = EEnd n o -> job_code o <> 0%Z) -> file_history pr f0 (pre ++ [e]) f).
    { intros Hn. apply (fh_event _ _ _ _ f); [exact H|congruence|]. intros n o He Hc. destruct (Hn n o He Hc). }
    cbn [play_at] in E. destruct e; try (eapply IH; [apply Stay; congruence|exact E]).
    destruct (job_code o =? 0)%Z eqn:Ec.
    + cbv zeta in E. set (f' := write_all _ (pr n) f) in E.
      destruct (mem n (running pre)) eqn:Em; [|discriminate].
      destruct (made_b f' (pr n)) eqn:Eb; [|discriminate]. cbn [andb] in E.
      eapply IH; [|exact E]. apply (fh_event _ _ _ _ f); [exact H| |].
      * intros q Hq. exists n. split; [apply mem_in, Em|]. eapply write_all_writes, Hq.
      * intros n' o' He _. inversion He; subst. apply made_b_made, Eb.
    + eapply IH; [|exact E]. apply Stay. intros n' o' He. inversion He; subst. apply Z.eqb_neq, Ec.
Qed.

Definition left_at (base : Z) (pr : nid -> process) (tr : list event) (f0 : fs) : fs :=
  match play_at base pr [] tr f0 with Some f => f | None => f0 end.
Lemma left_at_history base pr f0 tr :
  match play_at base pr [] tr f0 with Some _ => true | None => false end = true ->
  file_history pr f0 tr (left_at base pr tr f0).
Proof.
  intros H. unfold left_at. destruct (play_at base pr [] tr f0) as [f|] eqn:E; [|discriminate].
  apply (play_at_history base pr f0 tr [] f0 f (fh_start _ _) E).
Qed.
