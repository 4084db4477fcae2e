(** Concrete histories with failing jobs, for the cases of Properties/Builds.v. *)
From Coq Require Import String Lia.
From Verif Require Import Model.Common Model.Records Model.Jobs Model.TaskSet Model.Dag
     Model.Sched Model.Exec Model.Text Model.Process Spec.Graph Spec.Trace Spec.Files Spec.Builds
     Proofs.DemoFacts Proofs.RebuildDemo.
Open Scope string_scope.
Open Scope nat_scope.
Open Scope list_scope.

Definition no_later (m : Z) (f : fs) : Prop := forall q x, f q = Some x -> (f_time x <= m)%Z.

(** Each job writes all its files when it ends; the n-th event is at time n. *)
Definition write_files (now : Z) (txt : string) (p : process) (f : fs) : fs :=
  fold_left (fun g q => fs_set g q (Some (File now txt true))) (writes p) f.
Definition dated_b (m : Z) (f : fs) (p : process) : bool :=
  forallb (fun q => match f q with Some x => (m <=? f_time x)%Z | None => false end) (writes p).
Definition bad_b (f : fs) (p : process) : bool :=
  match p_retcode p with
  | Some rf => match f rf with Some x => negb (read_retcode x =? 0)%Z | None => true end
  | None => true
  end.

Fixpoint act (pr : nid -> process) (m : Z) (pre tr : list event) (f : fs) : option fs :=
  match tr with
  | [] => Some f
  | e :: r =>
      match e with
      | EEnd n o =>
          let now := Z.of_nat (List.length pre) in
          let good := (job_code o =? 0)%Z in
          let f' := write_files now (if good then "0" else "2") (pr n) f in
          if mem n (running pre) && (if good then made_b f' (pr n) && dated_b m f' (pr n) else bad_b f' (pr n))
          then act pr m (pre ++ [e]) r f' else None
      | _ => act pr m (pre ++ [e]) r f
      end
  end.

Lemma write_files_writes now txt p f q : write_files now txt p f q <> f q -> In q (writes p).
Proof.
  unfold write_files. revert f. induction (writes p) as [|w l IH]; intros f; [cbn; congruence|].
  cbn [fold_left]. intros H. destruct (String.eqb_spec q w) as [->|N]; [left; reflexivity|]. right.
  apply (IH (fs_set f w (Some (File now txt true)))). intros E. apply H. rewrite E. unfold fs_set.
  destruct (String.eqb_spec q w); [contradiction|reflexivity].
Qed.
Lemma dated_b_dated m f0 f p : no_later m f0 -> dated_b m f p = true -> dated_since f0 f p.
Proof.
  intros Hm H q Hq. unfold dated_b in H. rewrite forallb_forall in H. specialize (H q Hq).
  destruct (f q) as [x|]; [|discriminate]. exists x. split; [reflexivity|]. intros q0 y Hy.
  apply Z.leb_le in H. specialize (Hm q0 y Hy). lia.
Qed.
Lemma bad_b_bad f p : bad_b f p = true -> p_retcode p <> None -> last_run_bad f p.
Proof.
  unfold bad_b, last_run_bad. destruct (p_retcode p) as [rf|]; [|congruence]. intros H _. exists rf.
  split; [reflexivity|]. destruct (f rf) as [x|]; [right|left; reflexivity]. exists x. split; [reflexivity|].
  apply Z.eqb_neq. now destruct (read_retcode x =? 0)%Z.
Qed.

Lemma act_history pr m f0 tr : no_later m f0 -> forall pre f g,
  build_history pr f0 pre f -> act pr m pre tr f = Some g -> build_history pr f0 (pre ++ tr) g.
Proof.
  intros Hm. induction tr as [|e tr IH]; intros pre f g H E.
  - rewrite app_nil_r. inversion E. subst. exact H.
  - replace (pre ++ e :: tr) with ((pre ++ [e]) ++ tr) by (rewrite <- app_assoc; reflexivity).
    assert (Stay : (forall n o, e <> EEnd n o) -> build_history pr f0 (pre ++ [e]) f).
    { intros Hn. apply (bh_event _ _ _ _ f); [exact H|congruence| |].
      all: intros n o He; destruct (Hn n o He). }
    cbn [act] in E. destruct e; try (eapply IH; [apply Stay; congruence|exact E]).
    destruct (mem n (running pre)) eqn:Em; [|discriminate]. cbn [andb] in E. cbv zeta in E.
    set (f' := write_files _ _ (pr n) f) in E.
    assert (Hq : forall q, f' q <> f q -> exists n, In n (running pre) /\ In q (writes (pr n))).
    { intros q Hq. exists n. split; [apply mem_in, Em|]. eapply write_files_writes, Hq. }
    destruct (job_code o =? 0)%Z eqn:Ec.
    + destruct (made_b f' (pr n)) eqn:Eb; [|discriminate]. destruct (dated_b m f' (pr n)) eqn:Ed; [|discriminate].
      eapply IH; [|exact E]. apply (bh_event _ _ _ _ f); [exact H|exact Hq| |].
      * intros n' o' He _. inversion He; subst. split; [apply made_b_made, Eb|eapply dated_b_dated; eassumption].
      * intros n' o' He Hc. inversion He; subst. apply Z.eqb_eq in Ec. contradiction.
    + destruct (bad_b f' (pr n)) eqn:Eb; [|discriminate].
      eapply IH; [|exact E]. apply (bh_event _ _ _ _ f); [exact H|exact Hq| |].
      * intros n' o' He Hc. inversion He; subst. apply Z.eqb_neq in Ec. contradiction.
      * intros n' o' He _. inversion He; subst. apply bad_b_bad, Eb.
Qed.

Definition act_end (pr : nid -> process) (m : Z) (tr : list event) (f0 : fs) : fs :=
  match act pr m [] tr f0 with Some f => f | None => f0 end.
Lemma act_end_history pr m f0 tr : no_later m f0 ->
  match act pr m [] tr f0 with Some _ => true | None => false end = true -> build_history pr f0 tr (act_end pr m tr f0).
Proof.
  intros Hm H. unfold act_end. destruct (act pr m [] tr f0) as [f|] eqn:E; [|discriminate].
  apply (act_history pr m f0 tr Hm [] f0 f (bh_start _ _) E).
Qed.

(** How late the files are after [play]. *)
Lemma play_no_later pr m tr : forall pre f g, no_later m f -> (Z.of_nat (List.length pre + List.length tr) <= m)%Z ->
  play pr pre tr f = Some g -> no_later m g.
Proof.
  induction tr as [|e tr IH]; intros pre f g Hf Hl E; [inversion E; subst; exact Hf|].
  assert (Hl' : (Z.of_nat (List.length (pre ++ [e]) + List.length tr) <= m)%Z).
  { rewrite app_length. cbn [List.length] in *. lia. }
  cbn [play] in E. destruct e; try (eapply IH; [exact Hf|exact Hl'|exact E]).
  destruct (job_code o =? 0)%Z; [|eapply IH; [exact Hf|exact Hl'|exact E]].
  destruct (mem n (running pre) && _) eqn:Em in E; [|discriminate].
  eapply IH; [|exact Hl'|exact E]. unfold write_all. clear -Hf Hl. revert f Hf.
  induction (writes (pr n)) as [|w l IHl]; intros f Hf; [exact Hf|]. cbn [fold_left]. apply IHl.
  intros q x. unfold fs_set. destruct (String.eqb q w); [|apply Hf]. intros Ex. inversion Ex. subst.
  cbn [f_time]. cbn [List.length] in Hl. lia.
Qed.
Lemma play_end_no_later pr m tr f0 : no_later m f0 -> (Z.of_nat (List.length tr) <= m)%Z -> no_later m (play_end pr tr f0).
Proof.
  intros Hf Hl. unfold play_end. destruct (play pr [] tr f0) as [f|] eqn:E; [|exact Hf].
  eapply play_no_later; [exact Hf| |exact E]. exact Hl.
Qed.

Definition detectable_b (f : fs) (p : process) : bool :=
  match p_input p with [] => false | _ => true end &&
  forallb (fun o => match f o with Some x => (0 <? f_time x)%Z | None => true end) (p_output p).
Lemma detectable_b_ok f p : detectable_b f p = true -> detectable f p.
Proof.
  unfold detectable_b. rewrite andb_true_iff, forallb_forall. intros [H1 H2]. right. split.
  - destruct (p_input p); [discriminate|discriminate].
  - intros _ o x Ho Ex. specialize (H2 o Ho). rewrite Ex in H2. apply Z.ltb_lt, H2.
Qed.
