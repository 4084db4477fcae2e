(** What filters select. *)
From Coq Require Import String Ascii Relations Permutation Lia.
From Verif Require Import Model.Common Model.Records Model.Jobs Model.TaskSet Model.Dag
     Model.Sched Model.Exec Model.ExecSet Spec.Graph Spec.Trace Spec.Tasks Spec.Filters
     Proofs.TaskFacts Proofs.SetExec.
Open Scope string_scope.
Open Scope list_scope.

Lemma slashed_app p q : slashed (p ++ q) = (slashed p ++ slashed q)%string.
Proof. induction p as [|c p IH]; [reflexivity|]. cbn. rewrite IH, !sapp_assoc. reflexivity. Qed.

Lemma full_name_app p q : full_name (p ++ q) = (full_name p ++ slashed q)%string.
Proof. unfold full_name. rewrite slashed_app, sapp_assoc. reflexivity. Qed.

Lemma skip_plain c : forall a b p, has_slash c = false ->
  (a ++ "//" ++ b = c ++ slashed p)%string -> exists a', (a' ++ "//" ++ b = slashed p)%string.
Proof.
  induction c as [|x c IH]; intros a b p Hc E; [exists a; exact E|].
  cbn in Hc. apply orb_false_iff in Hc. destruct Hc as (Hx & Hc). destruct a as [|y a].
  - cbn in E. injection E as E1 E2. subst x. discriminate Hx.
  - cbn in E. injection E as _ E. exact (IH a b p Hc E).
Qed.

Lemma no_double_slash p : well_named p -> forall a b, (a ++ "//" ++ b)%string <> slashed p.
Proof.
  induction p as [|c p IH]; intros Hp a b E.
  - destruct a; discriminate E.
  - assert (Hp' : well_named p) by (intros x Hx; apply Hp; right; exact Hx).
    destruct (Hp c (or_introl eq_refl)) as (Hn & Hc). destruct a as [|y a].
    + destruct c as [|x c]; [destruct (Hn eq_refl)|]. cbn in E. injection E as E _. subst x.
      cbn in Hc. discriminate Hc.
    + cbn in E. injection E as _ E. destruct (skip_plain c a b p Hc E) as (a' & E'). exact (IH Hp' a' b E').
Qed.

Lemma slash_align c : forall d x p, has_slash c = false -> has_slash d = false ->
  (c ++ "/" ++ x = d ++ slashed p)%string -> c = d /\ ("/" ++ x = slashed p)%string.
Proof.
  induction c as [|a c IH]; intros d x p Hc Hd E.
  - destruct d as [|b d]; [auto|]. cbn in E. injection E as <- _. cbn in Hd. discriminate Hd.
  - cbn in Hc. apply orb_false_iff in Hc. destruct Hc as (Ha & Hc). destruct d as [|b d].
    + cbn in E. destruct p as [|y p]; cbn in E; [discriminate E|]. injection E as -> _. discriminate Ha.
    + cbn in E, Hd. apply orb_false_iff in Hd. destruct Hd as (_ & Hd). injection E as <- E.
      destruct (IH d x p Hc Hd E) as (-> & E'). auto.
Qed.

Lemma slashed_prefix q : forall p x, well_named q -> well_named p ->
  (slashed q ++ "/" ++ x = slashed p)%string -> exists r, r <> [] /\ p = q ++ r.
Proof.
  induction q as [|c q IH]; intros p x Hq Hp E.
  - exists p. split; [|reflexivity]. intros ->. discriminate E.
  - destruct p as [|d p]; [discriminate E|]. cbn in E. injection E as E. rewrite sapp_assoc in E.
    assert (Hq' : well_named q) by (intros y Hy; apply Hq; right; exact Hy).
    assert (Hp' : well_named p) by (intros y Hy; apply Hp; right; exact Hy).
    assert (Hs : exists y, (slashed q ++ "/" ++ x = "/" ++ y)%string).
    { destruct q as [|e q]; cbn; eauto. }
    destruct Hs as (y & Hs). cbn [append] in *.
    change (String "/" x) with ("/" ++ x)%string in *. change (String "/" y) with ("/" ++ y)%string in *.
    rewrite Hs in E.
    destruct (slash_align c d y p) as (-> & E2);
      [apply Hq; left; reflexivity|apply Hp; left; reflexivity|exact E|].
    rewrite <- Hs in E2. destruct (IH p x Hq' Hp' E2) as (r & Hr & ->). exists r. split; [exact Hr|reflexivity].
Qed.

Lemma below_iff q p : well_named q -> well_named p ->
  (substring (full_name q ++ "/") (full_name p) <-> exists r, r <> [] /\ p = q ++ r).
Proof.
  intros Hq Hp. split.
  - intros (a & b & E). unfold full_name in E. rewrite !sapp_assoc in E.
    destruct a as [|y a].
    + cbn in E. injection E as E. symmetry in E. exact (slashed_prefix q p b Hq Hp E).
    + cbn in E. injection E as _ E. exfalso.
      assert (X : exists b', (slashed q ++ String "/" b = "/" ++ b')%string) by (destruct q; cbn; eauto).
      destruct X as (b' & X). rewrite X in E. apply (no_double_slash p Hp a b'). symmetry. exact E.
  - intros (r & Hr & ->). rewrite full_name_app. destruct r as [|c r]; [destruct (Hr eq_refl)|].
    exists "", (c ++ slashed r)%string. cbn [append slashed]. rewrite !sapp_assoc. reflexivity.
Qed.

Lemma substring_trans a b c : substring a b -> substring b c -> substring a c.
Proof.
  intros (x & y & ->) (u & v & ->). exists (u ++ x)%string, (y ++ v)%string. rewrite !sapp_assoc. reflexivity.
Qed.

Lemma selected_antitone st ts f1 f2 t : substring f1 f2 -> selected st ts f2 t -> selected st ts f1 t.
Proof.
  intros H (p & r & Hh & Hs & Hd). exists p, r. split; [exact Hh|]. split; [|exact Hd].
  exact (substring_trans _ _ _ H Hs).
Qed.

Section Finished.
Variables (st : store) (ts : task_set) (filt : string) (iv : tid -> inval_answer)
          (addr : tid -> nid) (c : config) (z : Z) (s : state) (er : exec_record).
Hypothesis HX : execution_of st ts filt iv addr c.
Hypothesis HR : reachable c z s.
Hypothesis HE : result s = RRecord er.

Lemma taken_iff t : In t (map r_task (er_runs er)) <-> selected st ts filt t.
Proof. exact (proj1 (proj2 (set_recorded_once st ts filt iv addr c HX z s er HR HE)) t). Qed.
End Finished.

Theorem filter_antitone : forall st ts f1 iv1 addr1 c1 z1 s1 er1 f2 iv2 addr2 c2 z2 s2 er2,
  execution_of st ts f1 iv1 addr1 c1 -> reachable c1 z1 s1 -> result s1 = RRecord er1 ->
  execution_of st ts f2 iv2 addr2 c2 -> reachable c2 z2 s2 -> result s2 = RRecord er2 ->
  substring f1 f2 -> incl (map r_task (er_runs er2)) (map r_task (er_runs er1)).
Proof.
  intros st ts f1 iv1 addr1 c1 z1 s1 er1 f2 iv2 addr2 c2 z2 s2 er2 X1 R1 E1 X2 R2 E2 H t Ht.
  apply (taken_iff st ts f2 iv2 addr2 c2 z2 s2 er2 X2 R2 E2) in Ht.
  apply (taken_iff st ts f1 iv1 addr1 c1 z1 s1 er1 X1 R1 E1). exact (selected_antitone _ _ _ _ _ H Ht).
Qed.

Theorem filter_everything : forall st ts iv addr c z s er,
  execution_of st ts "" iv addr c -> reachable c z s -> result s = RRecord er ->
  forall t, In t (map r_task (er_runs er)) <->
            exists p u, holds ts p u /\ clos_refl_trans tid (depends_on st) u t.
Proof.
  intros st ts iv addr c z s er X R E t. rewrite (taken_iff st ts "" iv addr c z s er X R E). split.
  - intros (p & u & Hh & _ & Hd). eauto.
  - intros (p & u & Hh & Hd). exists p, u. split; [exact Hh|]. split; [|exact Hd].
    exists "", (full_name p). reflexivity.
Qed.

Theorem filter_subtree : forall st ts q iv addr c z s er,
  execution_of st ts (full_name q ++ "/") iv addr c -> reachable c z s -> result s = RRecord er ->
  well_named q -> all_well_named ts ->
  forall t, In t (map r_task (er_runs er)) <->
            exists p u, p <> [] /\ holds ts (q ++ p) u /\ clos_refl_trans tid (depends_on st) u t.
Proof.
  intros st ts q iv addr c z s er X R E Hq Hts t. rewrite (taken_iff st ts _ iv addr c z s er X R E). split.
  - intros (p & u & Hh & Hs & Hd). apply (below_iff q p Hq (Hts p u Hh)) in Hs. destruct Hs as (r & Hr & ->). eauto.
  - intros (p & u & Hp & Hh & Hd). exists (q ++ p), u. split; [exact Hh|]. split; [|exact Hd].
    apply (below_iff q (q ++ p) Hq (Hts _ _ Hh)). eauto.
Qed.

Theorem filter_inseparable : forall st ts filt iv addr c z s er p t q u,
  execution_of st ts filt iv addr c -> reachable c z s -> result s = RRecord er ->
  holds ts p t -> holds ts q u -> substring filt (full_name p) -> substring (full_name p) (full_name q) ->
  In t (map r_task (er_runs er)) /\ In u (map r_task (er_runs er)).
Proof.
  intros st ts filt iv addr c z s er p t q u X R E Ht Hu H1 H2.
  split; apply (taken_iff st ts filt iv addr c z s er X R E).
  - exists p, t. split; [exact Ht|]. split; [exact H1|apply rt_refl].
  - exists q, u. split; [exact Hu|]. split; [exact (substring_trans _ _ _ H1 H2)|apply rt_refl].
Qed.

(** The full name of a task selects it and the tasks whose full names begin with it. *)
Lemma name_prefix p : forall q x, well_named p -> p <> [] -> well_named q ->
  (slashed p ++ x = slashed q)%string ->
  exists r c d r', p = r ++ [c] /\ q = r ++ d :: r' /\ exists e, d = (c ++ e)%string.
Proof.
  induction p as [|c p IH]; intros q x Hp Hn Hq E; [destruct (Hn eq_refl)|].
  destruct q as [|d q]; [discriminate E|]. cbn in E. injection E as E. rewrite sapp_assoc in E.
  destruct (Hp c (or_introl eq_refl)) as (_ & Hc). destruct (Hq d (or_introl eq_refl)) as (_ & Hd).
  destruct p as [|c' p].
  - cbn in E. exists [], c, d, q. split; [reflexivity|]. split; [reflexivity|].
    clear - E Hc Hd. revert d Hd E. induction c as [|a c IHc]; intros d Hd E; [exists d; reflexivity|].
    cbn in Hc. apply orb_false_iff in Hc. destruct Hc as (Ha & Hc). destruct d as [|b d].
    + cbn in E. destruct q as [|y q]; cbn in E; [discriminate E|]. injection E as -> _. discriminate Ha.
    + cbn in E, Hd. apply orb_false_iff in Hd. destruct Hd as (_ & Hd). injection E as <- E.
      destruct (IHc Hc d Hd E) as (e & ->). exists e. reflexivity.
  - assert (Hp' : well_named (c' :: p)) by (intros y Hy; apply Hp; right; exact Hy).
    assert (Hq' : well_named q) by (intros y Hy; apply Hq; right; exact Hy).
    assert (Hs : exists y, (slashed (c' :: p) ++ x = "/" ++ y)%string) by (cbn; eauto).
    destruct Hs as (y & Hs). rewrite Hs in E.
    destruct (slash_align c d y q Hc Hd E) as (<- & E2). rewrite <- Hs in E2.
    destruct (IH q x Hp' ltac:(discriminate) Hq' E2) as (r & c1 & d1 & r' & Ep & Eq & He).
    exists (c :: r), c1, d1, r'. rewrite Ep, Eq. split; [reflexivity|]. split; [reflexivity|exact He].
Qed.

Lemma named_iff p q : well_named p -> p <> [] -> well_named q ->
  (substring (full_name p) (full_name q) <->
   exists r c e r', p = r ++ [c] /\ q = r ++ (c ++ e)%string :: r').
Proof.
  intros Hp Hn Hq. split.
  - intros (a & b & E). unfold full_name in E. rewrite !sapp_assoc in E. destruct a as [|y a].
    + cbn in E. injection E as E. symmetry in E.
      destruct (name_prefix p q b Hp Hn Hq E) as (r & c & d & r' & -> & -> & e & ->). eauto 6.
    + cbn in E. injection E as _ E. exfalso. destruct p as [|c p]; [destruct (Hn eq_refl)|].
      cbn in E. apply (no_double_slash q Hq a ((c ++ slashed p) ++ b)%string). symmetry. exact E.
  - intros (r & c & e & r' & -> & ->). rewrite !full_name_app. cbn [slashed].
    exists "", (e ++ slashed r')%string. cbn [append]. rewrite !sapp_assoc. cbn. rewrite !sapp_assoc. reflexivity.
Qed.

Theorem filter_name : forall st ts p iv addr c z s er,
  execution_of st ts (full_name p) iv addr c -> reachable c z s -> result s = RRecord er ->
  well_named p -> p <> [] -> all_well_named ts ->
  forall t, In t (map r_task (er_runs er)) <->
            exists r n e r' u, p = r ++ [n] /\ holds ts (r ++ (n ++ e)%string :: r') u /\
                               clos_refl_trans tid (depends_on st) u t.
Proof.
  intros st ts p iv addr c z s er X R E Hp Hn Hts t. rewrite (taken_iff st ts _ iv addr c z s er X R E). split.
  - intros (q & u & Hh & Hs & Hd). apply (named_iff p q Hp Hn (Hts q u Hh)) in Hs.
    destruct Hs as (r & n & e & r' & -> & ->). eauto 8.
  - intros (r & n & e & r' & u & -> & Hh & Hd). exists (r ++ (n ++ e)%string :: r'), u. split; [exact Hh|]. split; [|exact Hd].
    apply (named_iff _ _ Hp Hn (Hts _ _ Hh)). eauto 6.
Qed.

Theorem filter_nothing : forall st ts filt iv addr c z s er,
  execution_of st ts filt iv addr c -> reachable c z s -> result s = RRecord er ->
  (forall p t, holds ts p t -> ~ substring filt (full_name p)) -> er_runs er = [].
Proof.
  intros st ts filt iv addr c z s er X R E H. destruct (er_runs er) as [|r l] eqn:El; [reflexivity|]. exfalso.
  assert (Hin : In (r_task r) (map r_task (er_runs er))) by (rewrite El; left; reflexivity).
  apply (taken_iff st ts filt iv addr c z s er X R E) in Hin. destruct Hin as (p & u & Hh & Hs & _).
  exact (H p u Hh Hs).
Qed.
