(** Concrete file contents, for the cases of Properties/Contents.v. *)
From Coq Require Import String Lia.
From Verif Require Import Model.Common Model.Records Model.Jobs Model.TaskSet Model.Dag
     Model.Sched Model.Exec Model.Text Model.Process Spec.Graph Spec.Trace Spec.Files Spec.Builds Spec.Contents
     Proofs.DemoFacts Proofs.RebuildDemo Proofs.BuildDemo.
Open Scope string_scope.
Open Scope nat_scope.
Open Scope list_scope.

(** A job that ends with code 0 writes its files at that moment, one that ends otherwise
    writes its retcode file only; event number [k] is at time [base + k]. *)
Definition put (now : Z) (x : path -> string) (qs : list path) (f : fs) : fs :=
  fold_left (fun g q => fs_set g q (Some (File now (x q) true))) qs f.
Definition rc_files (p : process) : list path := match p_retcode p with Some rf => [rf] | None => [] end.
Definition wrote (job : tid -> process) (prog : programs) (t : tid) (now : Z) (good : bool) (f : fs) : fs :=
  if good
  then put now (fun _ => "0") (rc_files (job t))
         (put now (prog t (map (contents f) (p_input (job t)))) (p_output (job t)) f)
  else put now (fun _ => "2") (rc_files (job t)) f.

Section Film.
Variable job : tid -> process.
Variable prog : programs.
Variable c : config.
Variable base : Z.
Variable tr : list event.
Variable f0 : fs.
Definition shot (k : nat) (e : event) (f : fs) : fs :=
  match e with
  | EEnd n o => wrote job prog (node_task (c_dag c) n) (base + Z.of_nat k) (job_code o =? 0)%Z f
  | _ => f
  end.
Fixpoint film (k : nat) : fs :=
  match k with
  | 0 => f0
  | S k => match nth_error tr k with Some e => shot k e (film k) | None => film k end
  end.

Definition same_text (a b : option string) : bool :=
  match a, b with Some x, Some y => String.eqb x y | None, None => true | _, _ => false end.
Definition frame_ok (m : Z) (k : nat) : bool :=
  match nth_error tr k with
  | Some (EEnd n o) =>
      let t := node_task (c_dag c) n in
      let f := film k in
      let g := film (S k) in
      mem n (running (firstn k tr)) &&
      if (job_code o =? 0)%Z
      then made_b g (job t) && dated_b m g (job t) &&
           forallb (fun q => same_text (contents g q) (Some (prog t (map (contents f) (p_input (job t))) q))) (p_output (job t))
      else match p_retcode (job t) with Some _ => bad_b g (job t) | None => false end
  | _ => true
  end.

Lemma put_writes now x qs : forall f q, put now x qs f q <> f q -> In q qs.
Proof.
  induction qs as [|w l IH]; intros f q; [cbn; congruence|]. cbn [put fold_left]. intros H.
  destruct (String.eqb_spec q w) as [->|N]; [left; reflexivity|]. right.
  apply (IH (fs_set f w (Some (File now (x w) true)))). intros E. apply H. unfold put in E. rewrite E. unfold fs_set.
  destruct (String.eqb_spec q w); [contradiction|reflexivity].
Qed.
Lemma wrote_writes t now b f q : wrote job prog t now b f q <> f q -> In q (writes (job t)).
Proof.
  unfold wrote, writes. fold (rc_files (job t)). intros H. apply in_app_iff. destruct b.
  - set (g := put now _ (p_output (job t)) f) in H.
    assert (D : g q = f q \/ g q <> f q).
    { assert (D : {g q = f q} + {g q <> f q}).
      { decide equality. decide equality; [apply Bool.bool_dec|apply String.string_dec|apply Z.eq_dec]. }
      destruct D; auto. }
    destruct D as [E|N]; [|left; eapply put_writes, N]. right. rewrite <- E in H. eapply put_writes, H.
  - right. eapply put_writes, H.
Qed.

Lemma same_text_eq a b : same_text a b = true -> a = b.
Proof. destruct a, b; cbn; intros H; try discriminate; [|reflexivity]. apply String.eqb_eq in H. congruence. Qed.

Lemma film_worked m : no_later m f0 -> forallb (frame_ok m) (seq 0 (List.length tr)) = true ->
  worked job prog c film tr.
Proof.
  intros Hm H k e Ek. rewrite forallb_forall in H.
  assert (Hk : k < List.length tr) by (apply nth_error_Some; congruence).
  specialize (H k). rewrite in_seq in H. specialize (H ltac:(lia)). unfold frame_ok in H. rewrite Ek in H.
  assert (Efilm : film (S k) = shot k e (film k)) by (cbn [film]; rewrite Ek; reflexivity).
  destruct e as [| | | | | | | |n o| | | | | |].
  all: try (split; [intros q Hq; rewrite Efilm in Hq; cbn [shot] in Hq; congruence|split; intros; discriminate]).
  cbv zeta in H. apply andb_true_iff in H. destruct H as (Hr & H). apply mem_in in Hr.
  split; [|split].
  - intros q Hq. exists n. split; [exact Hr|]. rewrite Efilm in Hq. cbn [shot] in Hq. eapply wrote_writes, Hq.
  - intros n' o' t E -> Hc. inversion E; subst. rewrite (proj2 (Z.eqb_eq _ _) Hc) in H.
    rewrite !andb_true_iff, forallb_forall in H. destruct H as ((H1 & H2) & H3).
    split; [apply made_b_made, H1|]. split; [eapply dated_b_dated; [exact Hm|exact H2]|].
    exists (contents (film k)). split.
    + intros i Hi. exists k. split; [lia|]. split; [exact Hr|reflexivity].
    + intros q Hq. apply same_text_eq. exact (H3 q Hq).
  - intros n' o' t E -> Hc. inversion E; subst. rewrite (proj2 (Z.eqb_neq _ _) Hc) in H.
    left. left. destruct (p_retcode _) eqn:Er in H; [|discriminate]. apply bad_b_bad; [exact H|congruence].
Qed.

Lemma put_no_later now x m qs : (now <= m)%Z -> forall f, no_later m f -> no_later m (put now x qs f).
Proof.
  intros Hn. induction qs as [|w l IH]; intros f Hf; [exact Hf|]. cbn [put fold_left]. apply IH.
  intros q y. unfold fs_set. destruct (String.eqb q w); [|apply Hf]. intros E. inversion E. exact Hn.
Qed.
Lemma film_no_later m : no_later m f0 -> (base + Z.of_nat (List.length tr) <= m)%Z ->
  forall k, k <= List.length tr -> no_later m (film k).
Proof.
  intros H0 Hm. induction k as [|k IH]; intros Hk; [exact H0|]. cbn [film].
  specialize (IH ltac:(lia)). destruct (nth_error tr k) as [e|]; [|exact IH].
  destruct e; try exact IH. cbn [shot wrote]. unfold wrote.
  destruct (job_code o =? 0)%Z; repeat (apply put_no_later; [lia|]); exact IH.
Qed.
End Film.

Lemma set_no_later m f q x : no_later m f -> (f_time x <= m)%Z -> no_later m (fs_set f q (Some x)).
Proof. intros H Hx p y. unfold fs_set. destruct (String.eqb p q); [|apply H]. intros E. inversion E. subst. exact Hx. Qed.

(** A file changes in the last moment, while a job that may write it is running. *)
Lemma worked_more job prog c w tr e n q x :
  worked job prog c w tr -> (forall m o, e <> EEnd m o) -> In n (running tr) ->
  In q (writes (job (node_task (c_dag c) n))) ->
  worked job prog c (fun k => if k <=? List.length tr then w k else fs_set (w (List.length tr)) q x) (tr ++ [e]).
Proof.
  intros Hw He Hn Hq k e' Ek.
  assert (Hk : k < List.length (tr ++ [e])) by (apply nth_error_Some; congruence).
  rewrite app_length in Hk. cbn [List.length] in Hk.
  destruct (Nat.eq_dec k (List.length tr)) as [->|Nk].
  - rewrite nth_error_app2, Nat.sub_diag in Ek by lia. cbn in Ek. inversion Ek; subst e'.
    split; [|split; intros m o t E; destruct (He m o E)].
    intros q' Hne. exists n. rewrite firstn_app, Nat.sub_diag, firstn_all, app_nil_r. split; [exact Hn|].
    rewrite Nat.leb_refl in Hne. replace (S (List.length tr) <=? List.length tr) with false in Hne
      by (symmetry; apply Nat.leb_gt; lia).
    unfold fs_set in Hne. destruct (String.eqb_spec q' q) as [E|N]; [rewrite E; exact Hq|congruence].
  - rewrite nth_error_app1 in Ek by lia.
    assert (Ef : forall j, j <= k -> firstn j (tr ++ [e]) = firstn j tr).
    { intros j Hj. rewrite firstn_app. replace (j - List.length tr) with 0 by lia. apply app_nil_r. }
    assert (El : forall j, j <= S k -> (j <=? List.length tr) = true) by (intros j Hj; apply Nat.leb_le; lia).
    destruct (Hw k e' Ek) as (H1 & H2 & H3). rewrite (El (S k)), (El k), (El 0), (Ef k) by lia.
    split; [exact H1|]. split; [|exact H3].
    intros m o t E1 E2 Hc. destruct (H2 m o t E1 E2 Hc) as (M & D & seen & Hs & Ho).
    split; [exact M|]. split; [exact D|]. exists seen. split; [|exact Ho].
    intros i Hi. destruct (Hs i Hi) as (j & Hj & Hr & Es). exists j.
    rewrite Ef, El by lia. auto.
Qed.
