(** Checks of processes while the files change. *)
From Coq Require Import String Lia.
From Verif Require Import Model.Common Model.Records Model.Jobs Model.Text Model.Process Model.FileQueries
     Model.MovingFiles Spec.Files Proofs.ProcessFacts Proofs.QueryFacts.
Open Scope nat_scope.
Open Scope list_scope.

Lemma mbind_some {A B} (x : checking A) (f : A -> checking B) k b k' :
  mbind x f k = Some (b, k') -> exists a k1, x k = Some (a, k1) /\ f a k1 = Some (b, k').
Proof. unfold mbind. destruct (x k) as [[a k1]|]; [eauto|discriminate]. Qed.
Lemma mbind_none {A B} (x : checking A) (f : A -> checking B) k :
  mbind x f k = None -> x k = None \/ exists a k1, x k = Some (a, k1) /\ f a k1 = None.
Proof. unfold mbind. destruct (x k) as [[a k1]|]; eauto. Qed.

Section Fixed.
Context (fmt : Z -> string) (first : nat -> bool) (qs : nat -> queries) (q : queries).
Context (E : forall k, qs k = q).

Definition same {A} (x : checking A) (y : option A) : Prop := forall k, option_map fst (x k) = y.

Lemma same_ret {A} (a : A) : same (mret a) (Some a).
Proof. intros k. reflexivity. Qed.
Lemma same_bind {A B} (x : checking A) (f : A -> checking B) y g :
  same x y -> (forall a, same (f a) (g a)) -> same (mbind x f) (qbind y g).
Proof.
  intros Hx Hf k. specialize (Hx k). unfold mbind. destruct (x k) as [[a k1]|]; cbn in Hx; subst y; cbn; [apply Hf|reflexivity].
Qed.
Lemma same_exists p : same (m_exists qs p) (q_exists q p).
Proof. intros k. unfold m_exists. rewrite E. destruct (q_exists q p); reflexivity. Qed.
Lemma same_write_time p : same (m_write_time qs p) (q_write_time q p).
Proof.
  apply same_bind; [apply same_exists|]. intros [|]; [|apply same_ret].
  intros k. unfold m_time. rewrite E. destruct (q_time q p); reflexivity.
Qed.
Lemma same_both a b : same (m_both first qs a b)
  (qbind (q_write_time q a) (fun x => qbind (q_write_time q b) (fun y => Some (x, y)))).
Proof.
  intros k. unfold m_both. destruct (first k).
  - apply same_bind; [apply same_write_time|]. intros x. apply same_bind; [apply same_write_time|].
    intros y. apply same_ret.
  - assert (H : same (mbind (m_write_time qs b) (fun y => mbind (m_write_time qs a) (fun x => mret (x, y))))
                 (qbind (q_write_time q b) (fun y => qbind (q_write_time q a) (fun x => Some (x, y))))).
    { apply same_bind; [apply same_write_time|]. intros y. apply same_bind; [apply same_write_time|].
      intros x. apply same_ret. }
    rewrite (H k). destruct (q_write_time q a), (q_write_time q b); reflexivity.
Qed.
Lemma same_min : forall l x, same (m_min_element first qs x l) (q_min_element (q_write_time q) x l).
Proof.
  induction l as [|y r IH]; intros x; cbn; [apply same_ret|].
  assert (H := same_bind _ (fun ab => if (fst ab <? snd ab)%Z then m_min_element first qs y r else m_min_element first qs x r)
                _ (fun ab => if (fst ab <? snd ab)%Z then q_min_element (q_write_time q) y r else q_min_element (q_write_time q) x r)
                (same_both y x)).
  intros k. rewrite H; [|intros [a b]; cbn; destruct (a <? b)%Z; apply IH].
  destruct (q_write_time q y); cbn; [|reflexivity]. destruct (q_write_time q x); reflexivity.
Qed.
Lemma same_max : forall l x, same (m_max_element first qs x l) (q_max_element (q_write_time q) x l).
Proof.
  induction l as [|y r IH]; intros x; cbn; [apply same_ret|].
  assert (H := same_bind _ (fun ab => if (fst ab <? snd ab)%Z then m_max_element first qs y r else m_max_element first qs x r)
                _ (fun ab => if (fst ab <? snd ab)%Z then q_max_element (q_write_time q) y r else q_max_element (q_write_time q) x r)
                (same_both x y)).
  intros k. rewrite H; [|intros [a b]; cbn; destruct (a <? b)%Z; apply IH].
  destruct (q_write_time q x); cbn; [|reflexivity]. destruct (q_write_time q y); reflexivity.
Qed.
Lemma same_all : forall l, same (m_all_exist qs l) (q_all_exist q l).
Proof.
  induction l as [|p r IH]; cbn; [apply same_ret|]. apply same_bind; [apply same_exists|].
  intros [|]; [exact IH|apply same_ret].
Qed.

Lemma fixed_files p k : option_map fst (m_is_invalidated fmt first qs p k) = q_is_invalidated fmt q p.
Proof.
  assert (Ht : same (m_tail fmt first qs p)
     match p_output p with
     | [] => Some (InvalResult true "no output")
     | o :: os => match p_input p with
       | [] => qbind (q_all_exist q (o :: os)) (fun b => Some (InvalResult b "output existance"))
       | i :: is =>
          qbind (q_min_element (q_write_time q) o os) (fun oldest =>
          qbind (q_exists q oldest) (fun b =>
          if negb b then Some (InvalResult true ("missing output: " ++ oldest))
          else qbind (q_max_element (q_write_time q) i is) (fun latest =>
               qbind (q_write_time q oldest) (fun ot =>
               qbind (q_write_time q latest) (fun it =>
               Some (InvalResult (ot <=? it)%Z
                ("oldest output " ++ oldest ++ " t: " ++ fmt ot ++ " " ++ newline ++
                 " latest input " ++ latest ++ " t: " ++ fmt it)))))))
       end
     end%string).
  { unfold m_tail. destruct (p_output p) as [|o os]; [apply same_ret|]. destruct (p_input p) as [|i is].
    - apply same_bind; [apply same_all|]. intros b. apply same_ret.
    - apply same_bind; [apply same_min|]. intros old. apply same_bind; [apply same_exists|].
      intros [|]; cbn; [|apply same_ret]. apply same_bind; [apply same_max|]. intros new.
      apply same_bind; [apply same_write_time|]. intros ot. apply same_bind; [apply same_write_time|].
      intros it. apply same_ret. }
  unfold m_is_invalidated, q_is_invalidated. destruct (p_retcode p) as [rf|]; [|apply Ht].
  apply (same_bind _ _ _ _ (same_exists rf)). intros [|]; cbn; [|apply same_ret].
  intros k1. unfold mbind, m_retcode. rewrite E. destruct (q_retcode q rf =? 0)%Z; [apply Ht|reflexivity].
Qed.
End Fixed.

Section Moving.
Context (fmt : Z -> string) (first : nat -> bool) (qs : nat -> queries) (w : nat -> fs).
Context (A : answered_at qs w).

Lemma newer_le i : only_newer w i -> forall a b, a <= b ->
  (path_to_write_time (w a) i <= path_to_write_time (w b) i)%Z.
Proof. intros H a b L. induction L; [lia|]. specialize (H m). lia. Qed.
Lemma untouched_newer o : untouched w o -> only_newer w o.
Proof. intros H k. unfold path_to_write_time. rewrite (H k), (H (S k)). lia. Qed.

Lemma exists_at p k b k' : m_exists qs p k = Some (b, k') -> k' = S k /\ b = fs_exists (w k) p.
Proof.
  unfold m_exists. destruct (q_exists (qs k) p) as [b'|] eqn:Eb; [|discriminate].
  intros H. injection H as <- <-. split; [reflexivity|]. destruct (A k p) as (H & _). specialize (H _ Eb).
  unfold fs_exists. destruct (w k p), b'; try reflexivity.
  - exfalso. assert (X : false = true) by (apply H; discriminate). discriminate.
  - exfalso. apply H; reflexivity.
Qed.
Lemma time_at p k t k' : m_time qs p k = Some (t, k') -> k' = S k /\ t = path_to_write_time (w k) p.
Proof.
  unfold m_time. destruct (q_time (qs k) p) as [t'|] eqn:Et; [|discriminate]. intros H. injection H as <- <-.
  split; [reflexivity|]. destruct (A k p) as (_ & H & _). destruct (H _ Et) as (x & Ex & ->).
  unfold path_to_write_time. now rewrite Ex.
Qed.
(** The time is the one of a moment in between. *)
Lemma write_time_at p k t k' : m_write_time qs p k = Some (t, k') ->
  exists m, k <= m < k' /\ t = path_to_write_time (w m) p.
Proof.
  intros H. apply mbind_some in H. destruct H as (b & k1 & H1 & H2). apply exists_at in H1. destruct H1 as (-> & ->).
  unfold fs_exists in H2. destruct (w k p) as [x|] eqn:Ex.
  - apply time_at in H2. destruct H2 as (-> & ->). exists (S k). split; [lia|reflexivity].
  - injection H2 as <- <-. exists k. split; [lia|]. unfold path_to_write_time. now rewrite Ex.
Qed.
Lemma both_at a b k x y k' : m_both first qs a b k = Some ((x, y), k') ->
  exists m n, k <= m < k' /\ k <= n < k' /\ x = path_to_write_time (w m) a /\ y = path_to_write_time (w n) b.
Proof.
  unfold m_both. destruct (first k); intros H; apply mbind_some in H; destruct H as (u & k1 & H1 & H);
    apply mbind_some in H; destruct H as (v & k2 & H2 & H); injection H as <- <- <-;
    apply write_time_at in H1, H2; destruct H1 as (m1 & L1 & ->), H2 as (m2 & L2 & ->).
  - exists m1, m2. repeat split; lia.
  - exists m2, m1. repeat split; lia.
Qed.
Lemma min_in : forall l x k m k', m_min_element first qs x l k = Some (m, k') -> k <= k' /\ In m (x :: l).
Proof.
  induction l as [|y r IH]; intros x k m k' H; cbn [m_min_element] in H.
  - injection H as <- <-. split; [lia|now left].
  - apply mbind_some in H. destruct H as ((a, b) & k1 & H1 & H). apply both_at in H1.
    destruct H1 as (m1 & n1 & L1 & L2 & _ & _). cbn [fst snd] in H. destruct (a <? b)%Z; apply IH in H;
      destruct H as (L & [H|H]); (split; [lia|]); cbn; auto.
Qed.
Lemma min_untouched : forall l x k m k', (forall o, In o (x :: l) -> untouched w o) ->
  m_min_element first qs x l k = Some (m, k') -> m = min_element (path_to_write_time (w 0)) x l.
Proof.
  induction l as [|y r IH]; intros x k m k' U H; cbn [m_min_element min_element] in *.
  - now injection H as <- <-.
  - apply mbind_some in H. destruct H as ((a, b) & k1 & H1 & H). apply both_at in H1.
    destruct H1 as (m1 & n1 & L1 & L2 & -> & ->). cbn [fst snd] in H.
    assert (X : forall o j, In o (x :: y :: r) -> path_to_write_time (w j) o = path_to_write_time (w 0) o)
      by (intros o j Ho; unfold path_to_write_time; now rewrite (U o Ho j)).
    rewrite (X y), (X x) in H by (cbn; auto).
    destruct (_ <? _)%Z; apply IH in H; try exact H; intros o [->|Ho]; apply U; cbn; auto.
Qed.
Lemma max_newer : forall l x k m k', (forall i, In i (x :: l) -> only_newer w i) ->
  m_max_element first qs x l k = Some (m, k') ->
  k <= k' /\ In m (x :: l) /\
  forall i, In i (x :: l) -> (path_to_write_time (w k) i <= path_to_write_time (w k') m)%Z.
Proof.
  induction l as [|y r IH]; intros x k m k' U H; cbn [m_max_element] in H.
  - injection H as <- <-. split; [lia|]. split; [now left|]. intros i [<-|[]]. lia.
  - apply mbind_some in H. destruct H as ((a, b) & k1 & H1 & H). apply both_at in H1.
    destruct H1 as (m1 & n1 & L1 & L2 & -> & ->). cbn [fst snd] in H.
    assert (X1 := newer_le x (U x ltac:(cbn; auto)) k m1 ltac:(lia)).
    assert (X2 := newer_le y (U y ltac:(cbn; auto)) k n1 ltac:(lia)).
    assert (X3 := newer_le x (U x ltac:(cbn; auto)) m1 k1 ltac:(lia)).
    assert (X4 := newer_le y (U y ltac:(cbn; auto)) n1 k1 ltac:(lia)).
    destruct (_ <? _)%Z eqn:Ec; [apply Z.ltb_lt in Ec|apply Z.ltb_ge in Ec]; apply IH in H;
      try (intros i [->|Hi]; apply U; cbn; auto);
      destruct H as (L & Hm & H); (split; [lia|]); (split; [destruct Hm; cbn; auto|]).
    + assert (Y := H y (or_introl eq_refl)). intros i [<-|[<-|Hi]]; [lia|lia|].
      specialize (H i (or_intror Hi)). assert (Z1 := newer_le i (U i ltac:(cbn; auto)) k k1 ltac:(lia)). lia.
    + assert (Y := H x (or_introl eq_refl)). intros i [<-|[<-|Hi]]; [lia|lia|].
      specialize (H i (or_intror Hi)). assert (Z1 := newer_le i (U i ltac:(cbn; auto)) k k1 ltac:(lia)). lia.
Qed.
Lemma all_untouched : forall l k b k', (forall o, In o l -> untouched w o) ->
  m_all_exist qs l k = Some (b, k') -> forall j, b = forallb (fs_exists (w j)) l.
Proof.
  induction l as [|o r IH]; intros k b k' U H j; cbn in *; [now injection H as <- <-|].
  apply mbind_some in H. destruct H as (a & k1 & H1 & H). apply exists_at in H1. destruct H1 as (-> & ->).
  assert (X : fs_exists (w j) o = fs_exists (w k) o)
    by (unfold fs_exists; rewrite (U o (or_introl eq_refl) k), (U o (or_introl eq_refl) j); reflexivity).
  rewrite X. destruct (fs_exists (w k) o); cbn; [|now injection H as <- <-].
  eapply IH; [|exact H]. intros p Hp. apply U. now right.
Qed.

(** What the answer is based on when there are inputs and outputs. *)
Lemma tail_cases p o os i is k r k' : p_output p = o :: os -> p_input p = i :: is ->
  (forall x, In x (p_input p) -> only_newer w x) ->
  m_tail fmt first qs p k = Some (r, k') ->
  exists old k1, k <= k1 /\ In old (o :: os) /\ m_min_element first qs o os k = Some (old, k1) /\
   ((fs_exists (w k1) old = false /\ k1 < k' /\ iv_invalidated r = true) \/
    exists new mo mn, fs_exists (w k1) old = true /\ k1 < mo < k' /\ k1 < mn < k' /\ In new (i :: is) /\
     (forall x, In x (i :: is) -> (path_to_write_time (w k) x <= path_to_write_time (w mn) new)%Z) /\
     iv_invalidated r = (path_to_write_time (w mo) old <=? path_to_write_time (w mn) new)%Z).
Proof.
  intros Eo Ei U H. unfold m_tail in H. rewrite Eo, Ei in H. rewrite Ei in U.
  apply mbind_some in H. destruct H as (old & k1 & H1 & H).
  exists old, k1. destruct (min_in _ _ _ _ _ H1) as (L1 & I1). split; [exact L1|]. split; [exact I1|]. split; [exact H1|].
  apply mbind_some in H. destruct H as (b & k2 & H2 & H). apply exists_at in H2. destruct H2 as (-> & ->).
  destruct (fs_exists (w k1) old) eqn:Ex; cbn [negb] in H.
  - right. apply mbind_some in H. destruct H as (new & k2 & H2 & H). apply max_newer in H2; [|exact U].
    destruct H2 as (L2 & I2 & H2). apply mbind_some in H. destruct H as (ot & k3 & H3 & H).
    apply mbind_some in H. destruct H as (it & k4 & H4 & H). apply write_time_at in H3, H4.
    destruct H3 as (mo & L3 & ->), H4 as (mn & L4 & ->). injection H as <- <-.
    exists new, mo, mn. split; [reflexivity|]. split; [lia|]. split; [lia|]. split; [exact I2|]. split; [|reflexivity].
    intros x Hx. specialize (H2 x Hx).
    assert (Z1 := newer_le x (U x Hx) k (S k1) ltac:(lia)).
    assert (Z2 := newer_le new (U new I2) k2 mn ltac:(lia)). lia.
  - left. injection H as <- <-. repeat split; lia.
Qed.

Lemma untouched_same o j k : untouched w o -> w j o = w k o.
Proof. intros H. rewrite (H j), (H k). reflexivity. Qed.

Lemma tail_sandwich p r k k' :
  (forall o, In o (p_output p) -> untouched w o) -> (forall i, In i (p_input p) -> only_newer w i) ->
  (forall rf, p_retcode p = Some rf -> forall j, exists x, w j rf = Some x /\ read_retcode x = 0%Z) ->
  m_tail fmt first qs p k = Some (r, k') ->
  (iv_invalidated r = false -> forall j, j <= k -> iv_invalidated (is_invalidated fmt (w j) p) = false) /\
  (iv_invalidated r = true -> iv_invalidated (is_invalidated fmt (w k') p) = true).
Proof.
  intros Uo Ui Hr H.
  assert (R : forall j, is_invalidated fmt (w j) p = is_invalidated fmt (w j) (Process (p_cmd p) (p_input p) (p_output p) None)).
  { intros j. unfold is_invalidated at 1. destruct (p_retcode p) as [rf|] eqn:Er; [|reflexivity].
    destruct (Hr rf eq_refl j) as (x & -> & ->). reflexivity. }
  setoid_rewrite R. clear R.
  destruct (p_output p) as [|o os] eqn:Eo.
  { unfold m_tail in H. rewrite Eo in H. injection H as <- <-. cbn. split; [discriminate|reflexivity]. }
  destruct (p_input p) as [|i is] eqn:Ei.
  { unfold m_tail in H. rewrite Eo, Ei in H. apply mbind_some in H. destruct H as (b & k1 & H1 & H).
    assert (X := all_untouched _ _ _ _ Uo H1). injection H as <- <-. cbn [iv_invalidated].
    split; intros ->; [intros j _|]; unfold is_invalidated; cbn [p_output p_input p_retcode iv_invalidated]; symmetry; apply X. }
  destruct (tail_cases p o os i is k r k' Eo Ei ltac:(rewrite Ei; exact Ui) H)
    as (old & k1 & L1 & I1 & H1 & C).
  apply (min_untouched os o k old k1 Uo) in H1.
  assert (M : forall j, min_element (path_to_write_time (w j)) o os = old).
  { intros j. rewrite H1. assert (X : forall x, In x (o :: os) -> path_to_write_time (w j) x = path_to_write_time (w 0) x)
      by (intros x Hx; unfold path_to_write_time; now rewrite (Uo x Hx j)).
    clear -X. revert o X. induction os as [|y t IH]; intros x X; cbn; [reflexivity|].
    rewrite (X y), (X x) by (cbn; auto). destruct (_ <? _)%Z; apply IH; intros z [->|Hz]; apply X; cbn; auto. }
  assert (F : forall j, iv_invalidated (is_invalidated fmt (w j) (Process (p_cmd p) (i :: is) (o :: os) None)) =
     if fs_exists (w j) old
     then (path_to_write_time (w j) old <=? path_to_write_time (w j) (max_element (path_to_write_time (w j)) i is))%Z
     else true).
  { intros j. unfold is_invalidated. cbn [p_output p_input p_retcode]. rewrite M.
    destruct (fs_exists (w j) old); reflexivity. }
  assert (Sx : forall j, fs_exists (w j) old = fs_exists (w k1) old)
    by (intros j; unfold fs_exists; now rewrite (untouched_same old j k1 (Uo old I1))).
  assert (St : forall j l, path_to_write_time (w j) old = path_to_write_time (w l) old)
    by (intros j l; unfold path_to_write_time; now rewrite (untouched_same old j l (Uo old I1))).
  destruct C as [(C1 & C2 & C3)|(new & mo & mn & C1 & C2 & C3 & C4 & C5 & C6)].
  - split; [congruence|]. intros _. rewrite F, Sx, C1. reflexivity.
  - rewrite C6. split.
    + intros C j Lj. apply Z.leb_gt in C. rewrite F, Sx, C1. apply Z.leb_gt. rewrite (St j mo).
      destruct (max_element_spec (path_to_write_time (w j)) is i) as [B _].
      specialize (C5 _ B). assert (X := newer_le _ (Ui _ B) j k Lj). lia.
    + intros C. apply Z.leb_le in C. rewrite F, Sx, C1. apply Z.leb_le. rewrite (St k' mo).
      destruct (max_element_spec (path_to_write_time (w k')) is i) as [_ B]. specialize (B new C4).
      assert (X := newer_le new (Ui new C4) mn k' ltac:(lia)). lia.
Qed.

Lemma check_sandwich p r k' :
  (forall o, In o (writes p) -> untouched w o) -> (forall i, In i (p_input p) -> only_newer w i) ->
  m_is_invalidated fmt first qs p 0 = Some (r, k') ->
  (iv_invalidated r = false -> iv_invalidated (is_invalidated fmt (w 0) p) = false) /\
  (iv_invalidated r = true -> iv_invalidated (is_invalidated fmt (w k') p) = true).
Proof.
  intros Uo Ui H. unfold m_is_invalidated in H. destruct (p_retcode p) as [rf|] eqn:Er.
  - assert (Ur : untouched w rf) by (apply Uo; unfold writes; rewrite Er; cbn; auto using in_or_app, in_eq).
    apply mbind_some in H. destruct H as (b & k1 & H1 & H). apply exists_at in H1. destruct H1 as (-> & ->).
    unfold fs_exists in H. destruct (w 0 rf) as [x|] eqn:Ex; cbn [negb] in H.
    + apply mbind_some in H. destruct H as (c & k2 & H2 & H). unfold m_retcode in H2. injection H2 as <- <-.
      destruct (A 1 rf) as (_ & _ & Q). rewrite (Ur 1), Ex in Q. rewrite Q in H.
      destruct (read_retcode x =? 0)%Z eqn:Ec.
      * apply Z.eqb_eq in Ec. destruct (fun a b c => tail_sandwich p r 2 k' a b c H) as (S1 & S2).
        -- intros o Ho. apply Uo. unfold writes. apply in_or_app. auto.
        -- exact Ui.
        -- intros rf' E' j. assert (rf' = rf) by congruence. subst rf'. exists x. rewrite (Ur j), Ex. auto.
        -- split; [intros C; apply S1; [exact C|lia]|exact S2].
      * injection H as <- <-. cbn. split; [discriminate|]. intros _. unfold is_invalidated.
        rewrite Er, (Ur 2), Ex, Ec. reflexivity.
    + injection H as <- <-. cbn. split; [discriminate|]. intros _. unfold is_invalidated.
      rewrite Er, (Ur 1), Ex. reflexivity.
  - destruct (fun a b c => tail_sandwich p r 0 k' a b c H) as (S1 & S2).
    + intros o Ho. apply Uo. unfold writes. apply in_or_app. auto.
    + exact Ui.
    + congruence.
    + split; [intros C; apply S1; [exact C|lia]|exact S2].
Qed.

(** Whatever happens to the outputs, "valid" is based on one of them. *)
Lemma valid_some_output p r k' :
  p_input p <> [] -> p_output p <> [] -> (forall i, In i (p_input p) -> only_newer w i) ->
  m_is_invalidated fmt first qs p 0 = Some (r, k') -> iv_invalidated r = false ->
  exists o j, In o (p_output p) /\ j < k' /\
    forall i, In i (p_input p) -> (path_to_write_time (w 0) i < path_to_write_time (w j) o)%Z.
Proof.
  intros Ni No Ui H V.
  assert (T : forall k, m_tail fmt first qs p k = Some (r, k') ->
    exists o j, In o (p_output p) /\ j < k' /\
    forall i, In i (p_input p) -> (path_to_write_time (w 0) i < path_to_write_time (w j) o)%Z).
  { intros k Hk. destruct (p_output p) as [|o os] eqn:Eo; [congruence|]. destruct (p_input p) as [|i is] eqn:Ei; [congruence|].
    destruct (tail_cases p o os i is k r k' Eo Ei ltac:(rewrite Ei; exact Ui) Hk) as (old & k1 & L1 & I1 & H1 & C).
    destruct C as [(C1 & C2 & C3)|(new & mo & mn & C1 & C2 & C3 & C4 & C5 & C6)]; [congruence|].
    exists old, mo. split; [exact I1|]. split; [lia|]. intros x Hx. rewrite C6 in V. apply Z.leb_gt in V.
    specialize (C5 x Hx). assert (X := newer_le x (Ui x Hx) 0 k ltac:(lia)). lia. }
  unfold m_is_invalidated in H. destruct (p_retcode p) as [rf|]; [|exact (T 0 H)].
  apply mbind_some in H. destruct H as (b & k1 & _ & H). destruct b; cbn [negb] in H.
  - apply mbind_some in H. destruct H as (c & k2 & _ & H). destruct (c =? 0)%Z; [exact (T k2 H)|].
    injection H as <- <-. discriminate V.
  - injection H as <- <-. discriminate V.
Qed.
End Moving.

(** The check only throws if a file vanishes at the wrong moment or a query fails. *)
Section Throws.
Context (fmt : Z -> string) (first : nat -> bool) (qs : nat -> queries).

Definition fine (p : path) : Prop := forall k, q_exists (qs k) p <> None /\
  (q_exists (qs k) p = Some true -> q_time (qs (S k)) p <> None).

Lemma fine_exists p k : fine p -> m_exists qs p k <> None.
Proof. intros H. unfold m_exists. destruct (H k) as (X & _). destruct (q_exists (qs k) p); congruence. Qed.
Lemma fine_time p k : fine p -> m_write_time qs p k <> None.
Proof.
  intros H N. apply mbind_none in N. destruct N as [N|(b & k1 & N1 & N)].
  - exact (fine_exists p k H N).
  - unfold m_exists in N1. destruct (H k) as (_ & X). destruct (q_exists (qs k) p) as [b'|]; [|discriminate].
    injection N1 as <- <-. destruct b'; [|discriminate]. unfold m_time in N. specialize (X eq_refl).
    destruct (q_time (qs (S k)) p); congruence.
Qed.
Lemma fine_both a b k : fine a -> fine b -> m_both first qs a b k <> None.
Proof.
  intros Ha Hb. unfold m_both. destruct (first k); intros N; apply mbind_none in N;
    (destruct N as [N|(x & k1 & _ & N)]; [revert N; now apply fine_time|]);
    apply mbind_none in N; (destruct N as [N|(y & k2 & _ & N)]; [revert N; now apply fine_time|discriminate]).
Qed.
Lemma fine_min : forall l x k, (forall p, In p (x :: l) -> fine p) -> m_min_element first qs x l k <> None.
Proof.
  induction l as [|y r IH]; intros x k H; cbn; [discriminate|]. intros N. apply mbind_none in N.
  destruct N as [N|(ab & k1 & _ & N)]; [revert N; apply fine_both; apply H; cbn; auto|].
  revert N. destruct (_ <? _)%Z; apply IH; intros p [->|Hp]; apply H; cbn; auto.
Qed.
Lemma fine_max : forall l x k, (forall p, In p (x :: l) -> fine p) -> m_max_element first qs x l k <> None.
Proof.
  induction l as [|y r IH]; intros x k H; cbn; [discriminate|]. intros N. apply mbind_none in N.
  destruct N as [N|(ab & k1 & _ & N)]; [revert N; apply fine_both; apply H; cbn; auto|].
  revert N. destruct (_ <? _)%Z; apply IH; intros p [->|Hp]; apply H; cbn; auto.
Qed.
Lemma fine_all : forall l k, (forall p, In p l -> fine p) -> m_all_exist qs l k <> None.
Proof.
  induction l as [|y r IH]; intros k H; cbn; [discriminate|]. intros N. apply mbind_none in N.
  destruct N as [N|([|] & k1 & _ & N)]; [revert N; apply fine_exists, H; now left| |discriminate].
  revert N. apply IH. intros p Hp. apply H. now right.
Qed.
Lemma min_elem_in : forall l x k m k', m_min_element first qs x l k = Some (m, k') -> In m (x :: l).
Proof.
  induction l as [|y r IH]; intros x k m k' H; cbn in H; [injection H as <- <-; now left|].
  apply mbind_some in H. destruct H as (ab & k1 & _ & H). destruct (_ <? _)%Z; apply IH in H; destruct H; cbn; auto.
Qed.
Lemma max_elem_in : forall l x k m k', m_max_element first qs x l k = Some (m, k') -> In m (x :: l).
Proof.
  induction l as [|y r IH]; intros x k m k' H; cbn in H; [injection H as <- <-; now left|].
  apply mbind_some in H. destruct H as (ab & k1 & _ & H). destruct (_ <? _)%Z; apply IH in H; destruct H; cbn; auto.
Qed.
Lemma fine_tail p k : (forall x, In x (looks_at p) -> fine x) -> m_tail fmt first qs p k <> None.
Proof.
  intros H. unfold looks_at in H. unfold m_tail.
  destruct (p_output p) as [|o os]; [discriminate|].
  assert (Ho : forall x, In x (o :: os) -> fine x) by (intros x Hx; apply H, in_or_app; auto).
  destruct (p_input p) as [|i is].
  - intros N. apply mbind_none in N. destruct N as [N|(b & k1 & _ & N)]; [|discriminate].
    revert N. apply fine_all. exact Ho.
  - assert (Hi : forall x, In x (i :: is) -> fine x)
      by (intros x Hx; apply H, in_or_app; right; apply in_or_app; auto).
    intros N. apply mbind_none in N. destruct N as [N|(old & k1 & E1 & N)]; [revert N; now apply fine_min|].
    apply min_elem_in in E1. apply Ho in E1.
    apply mbind_none in N. destruct N as [N|(b & k2 & _ & N)]; [revert N; now apply fine_exists|].
    destruct b; [|discriminate]. cbn [negb] in N.
    apply mbind_none in N. destruct N as [N|(new & k3 & E3 & N)]; [revert N; now apply fine_max|].
    apply max_elem_in in E3. apply Hi in E3.
    apply mbind_none in N. destruct N as [N|(ot & k4 & _ & N)]; [revert N; now apply fine_time|].
    apply mbind_none in N. destruct N as [N|(it & k5 & _ & N)]; [revert N; now apply fine_time|discriminate].
Qed.
Lemma check_no_throw p k :
  (forall x j, In x (looks_at p) -> q_exists (qs j) x <> None /\
     (q_exists (qs j) x = Some true -> q_time (qs (S j)) x <> None)) ->
  m_is_invalidated fmt first qs p k <> None.
Proof.
  intros H0. assert (H : forall x, In x (looks_at p) -> fine x) by (intros x Hx j; apply H0; exact Hx).
  unfold m_is_invalidated. destruct (p_retcode p) as [rf|] eqn:Er; [|now apply fine_tail].
  intros N. apply mbind_none in N. destruct N as [N|(b & k1 & _ & N)].
  - revert N. apply fine_exists, H. unfold looks_at. rewrite Er. apply in_or_app. right. apply in_or_app. right. now left.
  - destruct b; [|discriminate]. cbn [negb] in N. apply mbind_none in N. destruct N as [N|(c & k2 & _ & N)]; [discriminate|].
    revert N. destruct (c =? 0)%Z; [now apply fine_tail|discriminate].
Qed.
End Throws.
