(** Exact characterisations of the check of a process and of logged command lines. *)
From Coq Require Import String Ascii Lia Relations.
From Verif Require Import Model.Common Model.Records Model.Jobs Model.TaskSet Model.Sched Model.Exec
     Model.Text Model.Process Spec.Trace Spec.Tasks Spec.Files Proofs.TextFacts Proofs.SetExec Proofs.ProcessFacts.
Open Scope nat_scope.
Open Scope list_scope.

(** [min_element] is the first one of the smallest. *)
Lemma min_element_first {A} (proj : A -> Z) : forall l x,
  exists l1 l2, x :: l = l1 ++ min_element proj x l :: l2 /\
    (forall y, In y l1 -> (proj (min_element proj x l) < proj y)%Z) /\
    (forall y, In y l2 -> (proj (min_element proj x l) <= proj y)%Z).
Proof.
  induction l as [|y r IH]; intros x; cbn [min_element].
  - exists [], []. repeat split; intros ? [].
  - destruct (Z.ltb_spec (proj y) (proj x)) as [H|H].
    + destruct (IH y) as (l1 & l2 & E & H1 & H2). exists (x :: l1), l2.
      split; [cbn; congruence|]. split; [|exact H2].
      intros w [<-|Hw]; [|auto]. destruct (min_element_spec proj r y) as [_ Hm].
      specialize (Hm y (or_introl eq_refl)). lia.
    + destruct (IH x) as (l1 & l2 & E & H1 & H2). destruct l1 as [|w l1].
      * cbn in E. injection E as E1 E2. exists [], (y :: r).
        split; [cbn; congruence|]. split; [intros ? []|]. subst l2.
        intros v [<-|Hv]; [rewrite <- E1; exact H|apply H2; exact Hv].
      * cbn in E. injection E as E1 E2. subst w.
        exists (x :: y :: l1), l2. cbn. split; [congruence|]. split; [|exact H2].
        assert (Hx : (proj (min_element proj x r) < proj x)%Z) by (apply H1; cbn; auto).
        intros v [<-|[<-|Hv]]; [exact Hx|lia|]. apply H1. cbn. auto.
Qed.

Lemma last_run_bad_dec f p : last_run_bad f p \/ ~ last_run_bad f p.
Proof.
  destruct (p_retcode p) as [rf|] eqn:Er.
  - destruct (f rf) as [x|] eqn:Ex.
    + destruct (Z.eq_dec (read_retcode x) 0) as [E|E].
      * right. intros (rf' & E1 & [E2|(x' & E2 & E3)]); congruence.
      * left. exists rf. eauto.
    + left. exists rf. auto.
  - right. intros (rf & E & _). congruence.
Qed.

Lemma two_splits {A} : forall (l1 : list A) a l2 m1 m m2,
  l1 ++ a :: l2 = m1 ++ m :: m2 -> a = m \/ In a m1 \/ In m l1.
Proof.
  induction l1 as [|u l1 IH]; intros a l2 [|v m1] m m2 E; cbn in E; inversion E; subst; cbn; auto.
  destruct (IH _ _ _ _ _ H1) as [H|[H|H]]; auto.
Qed.

(** The check without a retcode file that matters. *)
Lemma check_tail fmt f p : ~ last_run_bad f p ->
  is_invalidated fmt f p = is_invalidated fmt f (Process (p_cmd p) (p_input p) (p_output p) None).
Proof.
  intros Hb. unfold is_invalidated. cbn [p_retcode p_output p_input].
  destruct (p_retcode p) as [rf|] eqn:Er; [|reflexivity].
  destruct (f rf) as [x|] eqn:Ex.
  - cbn zeta. destruct (Z.eqb_spec (read_retcode x) 0); [reflexivity|].
    exfalso. apply Hb. exists rf. split; [exact Er|]. right. eauto.
  - exfalso. apply Hb. exists rf. auto.
Qed.

Lemma check_exact fmt f p : iv_invalidated (is_invalidated fmt f p) = true <-> noticed f p.
Proof.
  destruct (last_run_bad_dec f p) as [Hb|Hb].
  { split; [intros _; left; exact Hb|intros _; exact (bad_run_noticed f p Hb fmt)]. }
  rewrite (check_tail fmt f p Hb). unfold is_invalidated, noticed. cbn [p_retcode p_output p_input].
  destruct (p_output p) as [|o os] eqn:Eo; [split; [auto|reflexivity]|].
  destruct (p_input p) as [|i is] eqn:Ei.
  { cbn [iv_invalidated]. rewrite forallb_forall. unfold fs_exists. split.
    - intros H. right. right. left. split; [discriminate|]. split; [reflexivity|].
      intros x Hx. specialize (H x Hx). destruct (f x); congruence.
    - intros [H|[H|[(_ & _ & H)|(H & _)]]]; [destruct (Hb H)|discriminate| |congruence].
      intros x Hx. specialize (H x Hx). destruct (f x); congruence. }
  cbn zeta. set (old := min_element (path_to_write_time f) o os).
  set (new := max_element (path_to_write_time f) i is).
  destruct (min_element_spec (path_to_write_time f) os o) as [Ho1 Ho2]. fold old in Ho1, Ho2.
  destruct (max_element_spec (path_to_write_time f) is i) as [Hi1 Hi2]. fold new in Hi1, Hi2.
  destruct (min_element_first (path_to_write_time f) os o) as (l1 & l2 & El & F1 & F2). fold old in El, F1, F2.
  change (path_to_write_time f) with (date f) in *.
  unfold fs_exists. destruct (f old) as [x|] eqn:Ex; cbn [negb iv_invalidated].
  - rewrite Z.leb_le. split.
    + intros H. right. right. right. split; [discriminate|]. right. exists old, new. auto.
    + intros [H|[H|[(_ & H & _)|(_ & [(m1 & m & m2 & Em & Hm & G1 & G2)|(o' & i' & H1 & H2 & H)])]]];
        [destruct (Hb H)|discriminate|discriminate| |].
      * exfalso. assert (Zm : date f m = 0%Z) by (unfold date; rewrite Hm; reflexivity).
        assert (Hold : In old (m1 ++ m :: m2)) by (rewrite <- Em; exact Ho1).
        assert (Hin : In m (o :: os)) by (rewrite Em; apply in_or_app; cbn; auto).
        assert (L : (date f old <= 0)%Z) by (rewrite <- Zm; auto).
        rewrite El in Em. destruct (two_splits _ _ _ _ _ _ Em) as [->|[Q|Q]]; [congruence| |].
        -- specialize (G1 _ Q). lia.
        -- specialize (F1 _ Q). apply in_app_or in Hold. destruct Hold as [Hold|[Hold|Hold]].
           ++ specialize (G1 _ Hold). lia.
           ++ congruence.
           ++ specialize (G2 _ Hold). lia.
      * specialize (Ho2 _ H1). specialize (Hi2 _ H2). lia.
  - split; [intros _|reflexivity]. right. right. right. split; [discriminate|]. left.
    assert (Z0 : date f old = 0%Z) by (unfold date; rewrite Ex; reflexivity).
    exists l1, old, l2. split; [exact El|]. split; [exact Ex|].
    split; intros q Hq; [specialize (F1 _ Hq)|specialize (F2 _ Hq)]; lia.
Qed.

(** * Command lines *)

Lemma escape_app a b : escape_spaces (a ++ b) = (escape_spaces a ++ escape_spaces b)%string.
Proof.
  induction a as [|c a IH]; [reflexivity|]. cbn [append escape_spaces].
  destruct (Ascii.eqb c " "); cbn [append]; rewrite IH; reflexivity.
Qed.

Lemma cmd_text_app l r : cmd_text (l ++ r) = (cmd_text l ++ cmd_text r)%string.
Proof.
  induction l as [|a l IH]; [reflexivity|]. cbn [List.app cmd_text]. rewrite IH.
  rewrite str_app_assoc. reflexivity.
Qed.

Lemma escape_id a : ~ has_space a -> escape_spaces a = a.
Proof.
  induction a as [|c a IH]; intros H; [reflexivity|]. cbn [escape_spaces].
  destruct (Ascii.eqb_spec c " ") as [->|E].
  - exfalso. apply H. exists ""%string, a. reflexivity.
  - f_equal. apply IH. intros (x & y & ->). apply H. exists (String c x), y. reflexivity.
Qed.

(** Text up to the first space. *)
Lemma first_space : forall a b x y, ~ has_space a ->
  (a ++ String " " x = escape_spaces b ++ String " " y)%string ->
  (~ has_space b /\ a = b /\ x = y) \/
  (exists b1 b2, b = (b1 ++ " " ++ b2)%string /\ a = (b1 ++ "\")%string /\ x = (escape_spaces b2 ++ String " " y)%string).
Proof.
  induction a as [|c a IH]; intros b x y Ha H.
  - destruct b as [|d b].
    + left. split; [intros (u & v & E); destruct u; discriminate|]. inversion H. auto.
    + exfalso. cbn in H. destruct (Ascii.eqb_spec d " "); inversion H; congruence.
  - assert (Ha' : ~ has_space a).
    { intros (u & v & ->). apply Ha. exists (String c u), v. reflexivity. }
    assert (Hc : c <> " "%char) by (intros ->; apply Ha; exists ""%string, a; reflexivity).
    destruct b as [|d b].
    + exfalso. cbn in H. inversion H. congruence.
    + cbn [escape_spaces] in H. destruct (Ascii.eqb_spec d " ") as [->|Ed].
      * cbn in H. inversion H as [[E1 E2]]. right. exists ""%string, b.
        destruct a as [|c' a].
        -- cbn in E2. inversion E2. auto.
        -- exfalso. cbn in E2. inversion E2. subst. apply Ha'. exists ""%string, a. reflexivity.
      * cbn in H. inversion H as [[E1 E2]]. destruct (IH b x y Ha' E2) as [(Hb & -> & ->)|(b1 & b2 & -> & -> & ->)].
        -- left. split; [|split; congruence]. intros (u & v & E). destruct u as [|u0 u].
           ++ inversion E. congruence.
           ++ inversion E. apply Hb. exists u, v. assumption.
        -- right. exists (String d b1), b2. cbn. repeat split; congruence.
Qed.

Lemma str_app_cancel : forall (a b c : string), (a ++ b = a ++ c)%string -> b = c.
Proof. induction a; cbn; intros b c H; [exact H|]. inversion H. auto. Qed.

Lemma unambiguous_iff c :
  (forall c', format_cmd c' = format_cmd c -> c' = c) <->
  (forall a, In a c -> ~ has_space a) /\
  (forall l a b r, c = l ++ a :: b :: r -> ~ ends_with_backslash a).
Proof.
  split.
  - intros Hu.
    assert (Ht : forall c', cmd_text c' = cmd_text c -> c' = c).
    { intros c' E. apply Hu. rewrite !format_cmd_text, E. reflexivity. }
    split.
    + intros a Ha (x & y & E). subst a. apply in_split in Ha. destruct Ha as (l & r & E).
      assert (Ec : l ++ (x ++ "\")%string :: y :: r = c).
      { apply Ht. subst c. rewrite !cmd_text_app. f_equal. cbn [cmd_text].
        rewrite !escape_app. cbn. rewrite !str_app_assoc. cbn. reflexivity. }
      subst c. apply (f_equal (@List.length _)) in Ec. rewrite !app_length in Ec. cbn in Ec. lia.
    + intros l a b r E (x & ->).
      assert (Ec : l ++ (x ++ " " ++ b)%string :: r = c).
      { apply Ht. subst c. rewrite !cmd_text_app. f_equal. cbn [cmd_text].
        rewrite !escape_app. cbn. rewrite !str_app_assoc. cbn. reflexivity. }
      subst c. apply (f_equal (@List.length _)) in Ec. rewrite !app_length in Ec. cbn in Ec. lia.
  - intros [Hs Hb] c' H. rewrite !format_cmd_text in H. apply str_app_last_inj in H.
    revert c' Hs Hb H. induction c as [|a c IH]; intros [|b c'] Hs Hb H.
    + reflexivity.
    + exfalso. cbn in H. destruct (escape_spaces b); discriminate.
    + exfalso. cbn in H. destruct (escape_spaces a); discriminate.
    + cbn [cmd_text] in H. rewrite (escape_id a) in H by (apply Hs; cbn; auto).
      symmetry in H. apply first_space in H; [|apply Hs; cbn; auto].
      destruct H as [(_ & -> & H)|(b1 & b2 & -> & -> & H)].
      * f_equal. apply IH; [intros x Hx; apply Hs; cbn; auto| |symmetry; exact H].
        intros l x y r E. apply (Hb (b :: l) x y r). cbn. congruence.
      * exfalso. destruct c as [|a2 c].
        -- cbn in H. destruct (escape_spaces b2); discriminate.
        -- apply (Hb [] (b1 ++ "\")%string a2 c eq_refl). exists b1. reflexivity.
Qed.

(** * Incremental builds, whatever the files are *)
Lemma incremental_exact fmt f job st ts filt addr c z s er :
  execution_of st ts filt (process_checks fmt f job) addr c ->
  reachable c z s -> result s = RRecord er ->
  (forall r, In r (er_runs er) -> r_status r <> FAIL) ->
  forall t, selected st ts filt t ->
    (runs_here st ts filt f job t -> In (EBegin (addr t)) (trace s)) /\
    (~ runs_here st ts filt f job t -> ~ In (EBegin (addr t)) (trace s)) /\
    exists r, In r (er_runs er) /\ r_task r = t /\
      (runs_here st ts filt f job t -> r_status r = OK) /\
      (~ runs_here st ts filt f job t -> r_status r = SKIP).
Proof.
  intros He HR H Hok t Ht.
  assert (E : runs_here st ts filt f job t <-> task_invalidated st ts filt (process_checks fmt f job) t).
  { unfold runs_here, task_invalidated, process_checks. split.
    - intros (u & Hu & Hn). exists u. eexists. split; [exact Hu|].
      rewrite (proj2 (check_exact fmt f (job u)) Hn). reflexivity.
    - intros (u & log & Hu & Hi). exists u. split; [exact Hu|].
      apply (check_exact fmt f (job u)). inversion Hi. reflexivity. }
  destruct (set_incremental st ts filt _ addr c He z s er HR H Hok t Ht) as (H1 & H2 & r & H3 & H4 & H5 & H6).
  rewrite E. split; [exact H1|]. split; [exact H2|]. exists r. rewrite E. repeat split; assumption.
Qed.

(** When exactly a failed run is retried. *)
Lemma failed_run_exact p e f0 rf o f1 :
  p_retcode p = Some rf -> process_run p e f0 = (o, f1) -> rr_retcode (run_lambda o) <> 0%Z -> is_int (fst (sb_exit e)) ->
  let left := if (ec_value (sb_start e) =? 0)%Z then sb_fs e else f0 in
  (invalidated f1 p <->
   ((exists code, completed e code) /\ sb_remove_throws e = None) \/ noticed left p).
Proof.
  intros Hrf H Hn Hi left.
  assert (Ex : invalidated f1 p <-> noticed f1 p).
  { split; [intros Hv; apply (check_exact (fun _ => EmptyString)), Hv|intros Hv fmt; apply check_exact, Hv]. }
  assert (D : ((exists code, completed e code) /\ sb_remove_throws e = None) \/
              (f1 = left /\ ~ ((exists code, completed e code) /\ sb_remove_throws e = None))).
  { unfold left, completed. unfold process_run, ec_set in H. destruct (ec_value (sb_start e) =? 0)%Z eqn:E1; cbn [negb] in H.
    - apply Z.eqb_eq in E1. destruct (ec_value (sb_drain e) =? 0)%Z eqn:E2; cbn [negb] in H.
      + apply Z.eqb_eq in E2. destruct (sb_exit e) as [code ec]. cbn [fst snd].
        destruct (ec_value ec =? 0)%Z eqn:E3; cbn [negb] in H.
        * apply Z.eqb_eq in E3. rewrite Hrf in H. destruct (sb_remove_throws e) as [w|] eqn:E4.
          -- right. injection H as <- <-. split; [reflexivity|]. intros [_ X]. discriminate.
          -- left. split; [exists code; auto|reflexivity].
        * right. injection H as <- <-. split; [reflexivity|]. intros [(x & _ & _ & _ & X) _]. apply Z.eqb_neq in E3. congruence.
      + right. injection H as <- <-. split; [reflexivity|]. intros [(x & _ & X & _) _]. apply Z.eqb_neq in E2. congruence.
    - right. injection H as <- <-. split; [reflexivity|]. intros [(x & X & _) _]. apply Z.eqb_neq in E1. congruence. }
  destruct D as [[(code & Hc) Ht]|[-> Hno]].
  - split; [intros _; left; split; [exists code; exact Hc|exact Ht]|]. intros _. eapply failed_run_retried; [exact Hrf|exact H|exact Hn|]. left. split; [|exact Ht].
    exists code. split; [|exact Hc]. destruct Hc as (_ & _ & <- & _). exact Hi.
  - rewrite Ex. tauto.
Qed.

(** * When a missing output goes unnoticed *)

Lemma first_least (g : path -> Z) : forall l : list path, l <> [] -> exists l1 x l2, l = l1 ++ x :: l2 /\
  (forall q, In q l1 -> (g x < g q)%Z) /\ (forall q, In q l2 -> (g x <= g q)%Z).
Proof.
  induction l as [|a l IH]; intros H; [destruct (H eq_refl)|]. destruct l as [|b l].
  - exists [], a, []. split; [reflexivity|]. split; intros q [].
  - destruct IH as (l1 & x & l2 & E & H1 & H2); [discriminate|]. destruct (Z_le_gt_dec (g a) (g x)) as [L|L].
    + exists [], a, (b :: l). split; [reflexivity|]. split; [intros q []|]. rewrite E. intros q Hq.
      apply in_app_iff in Hq as [Hq|[<-|Hq]]; [specialize (H1 q Hq); lia|exact L|specialize (H2 q Hq); lia].
    + exists (a :: l1), x, l2. split; [rewrite E; reflexivity|]. split; [|exact H2].
      intros q [<-|Hq]; [lia|exact (H1 q Hq)].
Qed.

Lemma first_least_unique (g : path -> Z) : forall (l1 l1' : list path) x x' l2 l2', l1 ++ x :: l2 = l1' ++ x' :: l2' ->
  (forall q, In q l1 -> (g x < g q)%Z) -> (forall q, In q l2 -> (g x <= g q)%Z) ->
  (forall q, In q l1' -> (g x' < g q)%Z) -> (forall q, In q l2' -> (g x' <= g q)%Z) -> x = x'.
Proof.
  induction l1 as [|a l1 IH]; intros [|a' l1'] x x' l2 l2' E H1 H2 H3 H4; cbn in E; injection E as E1 E2.
  - exact E1.
  - subst a'. exfalso. specialize (H3 x (or_introl eq_refl)).
    assert (H : In x' l2) by (rewrite E2; apply in_or_app; right; left; reflexivity). specialize (H2 x' H). lia.
  - subst a. exfalso. specialize (H1 x' (or_introl eq_refl)).
    assert (H : In x l2') by (rewrite <- E2; apply in_or_app; right; left; reflexivity). specialize (H4 x H). lia.
  - apply (IH l1' x x' l2 l2' E2); [|exact H2| |exact H4]; intros q Hq; [apply H1|apply H3]; right; exact Hq.
Qed.

Theorem missing_exact fmt f p o : In o (p_output p) -> f o = None ->
  (iv_invalidated (is_invalidated fmt f p) = false <->
   ~ last_run_bad f p /\
   (p_input p = [] \/
    ((forall o' i, In o' (p_output p) -> In i (p_input p) -> (date f i < date f o')%Z) /\
     exists l1 o' l2, p_output p = l1 ++ o' :: l2 /\ f o' <> None /\
       (forall q, In q l1 -> (date f o' < date f q)%Z) /\ (forall q, In q l2 -> (date f o' <= date f q)%Z)))).
Proof.
  intros Ho Hn. rewrite <- Bool.not_true_iff_false, check_exact. unfold noticed.
  assert (Hne : p_output p <> []) by (intros E; rewrite E in Ho; destruct Ho).
  assert (Hd : forall q, f q = None -> date f q = 0%Z) by (intros q E; unfold date; rewrite E; reflexivity).
  split.
  - intros H. split; [tauto|]. destruct (p_input p) as [|i is] eqn:Ei; [left; reflexivity|right].
    assert (Hc : forall o' i', In o' (p_output p) -> In i' (i :: is) -> (date f i' < date f o')%Z).
    { intros o' i' H1 H2. destruct (Z_lt_ge_dec (date f i') (date f o')) as [L|L]; [exact L|exfalso].
      apply H. right; right; right. split; [discriminate|]. right. exists o', i'. split; [exact H1|]. split; [exact H2|lia]. }
    split; [exact Hc|]. destruct (first_least (date f) (p_output p) Hne) as (l1 & x & l2 & E & H1 & H2).
    exists l1, x, l2. split; [exact E|]. split; [|split; [exact H1|exact H2]]. intros Hx.
    apply H. right; right; right. split; [discriminate|]. left. exists l1, x, l2.
    rewrite (Hd x Hx) in H1, H2. split; [exact E|]. split; [exact Hx|]. split; [exact H1|exact H2].
  - intros [Hb [Ei|[Hc (l1 & x & l2 & E & Hx & H1 & H2)]]] [H|[H|[(_ & _ & H)|(Hi & [(m1 & y & m2 & E' & Hy & H3 & H4)|(o' & i & H3 & H4 & H5)])]]].
    + exact (Hb H).
    + exact (Hne H).
    + exact (H o Ho Hn).
    + exact (Hi Ei).
    + exact (Hi Ei).
    + exact (Hb H).
    + exact (Hne H).
    + exact (H o Ho Hn).
    + rewrite <- (Hd y Hy) in H3, H4. rewrite E in E'.
      rewrite (first_least_unique (date f) _ _ _ _ _ _ E' H1 H2 H3 H4) in Hx. exact (Hx Hy).
    + specialize (Hc o' i H3 H4). lia.
Qed.

Theorem missing_seen fmt f p o i : In o (p_output p) -> f o = None -> In i (p_input p) -> (0 <= date f i)%Z ->
  iv_invalidated (is_invalidated fmt f p) = true.
Proof.
  intros Ho Hn Hi Hd. apply Bool.not_false_iff_true. intros H. apply (missing_exact fmt f p o Ho Hn) in H.
  destruct H as [_ [E|[Hc _]]]; [rewrite E in Hi; destruct Hi|]. specialize (Hc o i Ho Hi).
  unfold date in Hc at 2. rewrite Hn in Hc. lia.
Qed.
