(** The JUnit report gives the names back exactly when they are plain text. *)
From Coq Require Import String Ascii Lia.
From Verif Require Import Model.Common Model.Records Model.Text Model.Process Model.Format Model.Report
     Spec.Xml Spec.Report Proofs.TextFacts Proofs.ProcessFacts Proofs.FormatFacts Proofs.ReportFacts.
Open Scope string_scope.
Open Scope nat_scope.
Open Scope list_scope.

(** * What has been read so far, seen as a forest *)
Definition current (m : mode) : list xml :=
  match m with
  | OpenName n => [Elem n [] []]
  | InTag n a | AttrName n a _ | AttrEq n a _ | AttrVal n a _ _ | AttrEnt n a _ _ _ | AttrEnd n a
  | Slash n a => [Elem n a []]
  | _ => []
  end.
Fixpoint closed (o : list (string * list (string * string) * list xml)) (l : list xml) : list xml :=
  match o with [] => l | (n, a, c) :: o' => closed o' [Elem n a (c ++ l)] end.
Definition view (r : reader) : list xml := rd_top r ++ closed (rd_open r) (current (rd_mode r)).
Definition key_ok (m : mode) : Prop :=
  match m with
  | AttrEq _ a k | AttrVal _ a k _ | AttrEnt _ a k _ _ => fresh_key k a = true
  | _ => True
  end.

(** The attributes of the element at a position. *)
Fixpoint get (p : list nat) (f : list xml) : option (list (string * string)) :=
  match p with
  | [] => None
  | [i] => option_map el_attrs (nth_error f i)
  | i :: q => match nth_error f i with Some x => get q (el_children x) | None => None end
  end.

Section Mono.
Variables key w : string.
Definition settled (a : list (string * string)) : Prop :=
  In (key, w) a /\ forall v, In (key, v) a -> v = w.
Definition keeps (l l' : list xml) : Prop :=
  forall p a, get p l = Some a -> settled a -> exists a', get p l' = Some a' /\ settled a'.

Lemma keeps_refl l : keeps l l.
Proof. intros p a H1 H2. eauto. Qed.
Lemma keeps_trans a b c : keeps a b -> keeps b c -> keeps a c.
Proof. intros H1 H2 p x Hx Sx. destruct (H1 p x Hx Sx) as (y & Hy & Sy). eauto. Qed.

Lemma keeps_app c l l' : keeps l l' -> keeps (c ++ l) (c ++ l').
Proof.
  intros K p a G S. destruct p as [|i p]; [discriminate|].
  destruct (Nat.lt_ge_cases i (List.length c)) as [Hi|Hi].
  - exists a. split; [|exact S]. cbn [get] in *. rewrite nth_error_app1 in * by exact Hi. exact G.
  - destruct (K ((i - List.length c) :: p) a) as (a' & G' & S').
    + cbn [get] in *. rewrite nth_error_app2 in G by exact Hi. exact G.
    + exact S.
    + exists a'. split; [|exact S']. cbn [get] in *. rewrite nth_error_app2 by exact Hi. exact G'.
Qed.
Lemma keeps_child n n' a l l' : keeps l l' -> keeps [Elem n a l] [Elem n' a l'].
Proof.
  intros K p x G S. destruct p as [|[|i] p]; [discriminate| |].
  - destruct p as [|j p].
    + cbn in *. eauto.
    + cbn [get nth_error el_children] in *. exact (K (j :: p) x G S).
  - destruct p; cbn in G; destruct i; discriminate.
Qed.
Lemma keeps_new l : keeps [] l.
Proof. intros [|i [|j p]] a G; [discriminate| |]; cbn in G; destruct i; discriminate. Qed.

Lemma fresh_not k a : fresh_key k a = true -> forall v, ~ In (k, v) a.
Proof.
  unfold fresh_key. rewrite Bool.negb_true_iff. intros H v Hv. rewrite <- Bool.not_true_iff_false in H.
  apply H. apply existsb_exists. exists (k, v). split; [exact Hv|]. cbn. apply String.eqb_refl.
Qed.
Lemma keeps_attr n a k v : fresh_key k a = true -> keeps [Elem n a []] [Elem n (a ++ [(k, v)]) []].
Proof.
  intros F p x G S. destruct p as [|[|i] p]; [discriminate| |].
  - destruct p as [|j p].
    + cbn in *. injection G as <-. eexists. split; [reflexivity|]. destruct S as [S1 S2].
      split; [apply in_or_app; left; exact S1|].
      intros v' Hv'. apply in_app_or in Hv'. destruct Hv' as [Hv'|[E|[]]]; [apply S2, Hv'|].
      injection E as -> ->. exfalso. apply (fresh_not _ _ F w), S1.
    + cbn in G. destruct p; destruct j; discriminate.
  - destruct p; cbn in G; destruct i; discriminate.
Qed.
Lemma keeps_closed o : forall l l', keeps l l' -> keeps (closed o l) (closed o l').
Proof.
  induction o as [|[[n a] c] o IH]; intros l l' K; cbn [closed]; [exact K|].
  apply IH, keeps_child, keeps_app, K.
Qed.
Lemma keeps_view o t l l' : keeps l l' -> keeps (t ++ closed o l) (t ++ closed o l').
Proof. intros K. apply keeps_app, keeps_closed, K. Qed.

Lemma open_view r n a : view (open_elem r n a) = rd_top r ++ closed (rd_open r) [Elem n a []].
Proof. reflexivity. Qed.
Lemma add_view r x : view (add_elem r x) = rd_top r ++ closed (rd_open r) [x].
Proof.
  unfold add_elem, view. destruct (rd_open r) as [|[[n a] c] o]; cbn [rd_top rd_open rd_mode closed current].
  - rewrite app_nil_r. reflexivity.
  - rewrite app_nil_r. reflexivity.
Qed.
Lemma add_mode r x : rd_mode (add_elem r x) = Outside.
Proof. unfold add_elem. destruct (rd_open r) as [|[[n a] c] o]; reflexivity. Qed.

Lemma step_keeps r c : key_ok (rd_mode r) -> rd_mode (read_char r c) <> Error ->
  key_ok (rd_mode (read_char r c)) /\ keeps (view r) (view (read_char r c)).
Proof.
  intros K E. destruct r as [m o t]. unfold read_char in *. cbn [rd_mode rd_open rd_top] in *.
  destruct m; cbn [key_ok] in K.
  - destruct (white c); [split; [exact I|apply keeps_refl]|].
    destruct (Ascii.eqb c "<"); [|contradiction]. split; [exact I|apply keeps_refl].
  - destruct (Ascii.eqb c "/"); [split; [exact I|apply keeps_refl]|].
    destruct (Ascii.eqb c "?"); [split; [exact I|apply keeps_refl]|].
    destruct (name_char c); [|contradiction]. split; [exact I|]. apply keeps_view, keeps_new.
  - destruct (name_char c); [split; [exact I|]; apply keeps_view, keeps_child, keeps_refl|].
    destruct (white c); [split; [exact I|]; apply keeps_refl|].
    destruct (Ascii.eqb c ">"); [split; [exact I|]; apply keeps_refl|].
    destruct (Ascii.eqb c "/"); [|contradiction]. split; [exact I|]; apply keeps_refl.
  - destruct (white c); [split; [exact I|]; apply keeps_refl|].
    destruct (name_char c); [split; [exact I|]; apply keeps_refl|].
    destruct (Ascii.eqb c ">"); [split; [exact I|]; apply keeps_refl|].
    destruct (Ascii.eqb c "/"); [|contradiction]. split; [exact I|]; apply keeps_refl.
  - destruct (name_char c); [split; [exact I|]; apply keeps_refl|].
    destruct (Ascii.eqb c "=" && fresh_key k a) eqn:F; [|contradiction].
    apply andb_prop in F as [_ F]. split; [exact F|]. apply keeps_refl.
  - destruct (Ascii.eqb c (ascii_of_nat 34)); [|contradiction]. split; [exact K|]. apply keeps_refl.
  - destruct (Ascii.eqb c (ascii_of_nat 34)); [split; [exact I|]; apply keeps_view, keeps_attr, K|].
    destruct (Ascii.eqb c "<"); [contradiction|].
    destruct (Ascii.eqb c "&"); [split; [exact K|]; apply keeps_refl|].
    destruct (white c); [split; [exact K|]; apply keeps_refl|].
    destruct (N_of_ascii c <? 32)%N; [contradiction|]. split; [exact K|]; apply keeps_refl.
  - destruct (Ascii.eqb c ";"); [destruct (entity e); [|contradiction]; split; [exact K|]; apply keeps_refl|].
    destruct (name_char c); [|contradiction]. split; [exact K|]; apply keeps_refl.
  - destruct (white c); [split; [exact I|]; apply keeps_refl|].
    destruct (Ascii.eqb c ">"); [split; [exact I|]; apply keeps_refl|].
    destruct (Ascii.eqb c "/"); [|contradiction]. split; [exact I|]; apply keeps_refl.
  - destruct (Ascii.eqb c ">"); [|contradiction]. rewrite add_mode, add_view. split; [exact I|]. apply keeps_refl.
  - destruct (name_char c); [split; [exact I|]; apply keeps_refl|].
    destruct (Ascii.eqb c ">"); [|contradiction]. unfold close_elem in *. cbn [rd_open rd_top] in *.
    destruct o as [|[[n' a] ch] o]; [contradiction|].
    destruct (String.eqb n n'); [|contradiction]. rewrite add_mode, add_view. split; [exact I|].
    cbn [rd_top rd_open]. unfold view. cbn [rd_top rd_open rd_mode current closed].
    apply keeps_view. rewrite app_nil_r. apply keeps_child, keeps_refl.
  - destruct (Ascii.eqb c "?"); split; try exact I; apply keeps_refl.
  - destruct (Ascii.eqb c ">"); [split; [exact I|]; apply keeps_refl|].
    destruct (Ascii.eqb c "?"); split; try exact I; apply keeps_refl.
  - contradiction.
Qed.

Lemma error_stays s : forall r, rd_mode r = Error -> rd_mode (read_chars r s) = Error.
Proof.
  induction s as [|c s IH]; intros r E; cbn [read_chars]; [exact E|]. apply IH.
  unfold read_char. rewrite E. exact E.
Qed.
Lemma read_keeps s : forall r, key_ok (rd_mode r) -> rd_mode (read_chars r s) <> Error ->
  keeps (view r) (view (read_chars r s)).
Proof.
  induction s as [|c s IH]; intros r K E; cbn [read_chars] in *; [apply keeps_refl|].
  assert (E1 : rd_mode (read_char r c) <> Error) by (intros H; apply E, error_stays, H).
  destruct (step_keeps r c K E1) as [K1 P1]. eapply keeps_trans; [exact P1|]. apply IH; assumption.
Qed.

(** An attribute that has been read stays. *)
Lemma read_settled s r p a x : key_ok (rd_mode r) -> get p (view r) = Some a -> settled a ->
  read_chars r s = Reader Outside [] [x] -> exists a', get p [x] = Some a' /\ settled a'.
Proof.
  intros K G S E. pose proof (read_keeps s r K) as P. rewrite E in P. cbn [rd_mode] in P.
  destruct (P ltac:(discriminate) p a G S) as (a' & G' & S'). eauto.
Qed.
End Mono.

(** * Text that is not plain is not read back *)
Definition quote : ascii := ascii_of_nat 34.
Definition pre_of (v target : string) : Prop := exists r, target = (v ++ r)%string.

Lemma length_snoc v c : String.length (snoc v c) = S (String.length v).
Proof. unfold snoc. induction v as [|x v IH]; cbn; [reflexivity|]. rewrite IH. reflexivity. Qed.
Lemma pre_snoc v c target : pre_of (snoc v c) target -> pre_of v target.
Proof. intros [r E]. exists (String c r). rewrite E. apply snoc_app. Qed.

Definition lost (target v : string) (left : string) : Prop :=
  String.length v + String.length left < String.length target \/ ~ pre_of v target.

Lemma lost_value target left : forall n a k o t rest,
  (forall v, lost target v left ->
    let r := read_chars (Reader (AttrVal n a k v) o t) (left ++ String quote rest)%string in
    rd_mode r = Error \/
    exists w rest', w <> target /\ r = read_chars (Reader (AttrEnd n (a ++ [(k, w)])) o t) rest') /\
  (forall v e, lost target v left ->
    let r := read_chars (Reader (AttrEnt n a k v e) o t) (left ++ String quote rest)%string in
    rd_mode r = Error \/
    exists w rest', w <> target /\ r = read_chars (Reader (AttrEnd n (a ++ [(k, w)])) o t) rest').
Proof.
  induction left as [|c left IH]; intros n a k o t rest.
  - split.
    + intros v L. cbn zeta. right. exists v, rest. split; [|reflexivity].
      intros ->. destruct L as [L|L]; [cbn in L; lia|]. apply L. exists "". symmetry. apply str_app_nil.
    + intros v e L. cbn zeta. left. cbn [append read_chars]. apply error_stays. reflexivity.
  - destruct (IH n a k o t rest) as [IH1 IH2]. split.
    + intros v L. cbn zeta. cbn [append read_chars].
      unfold read_char. cbn [rd_mode rd_open rd_top].
      destruct (Ascii.eqb_spec c (ascii_of_nat 34)) as [E|E].
      { right. exists v. eexists. split; [|reflexivity]. intros ->.
        destruct L as [L|L]; [cbn in L; lia|]. apply L. exists "". symmetry. apply str_app_nil. }
      destruct (Ascii.eqb c "<"); [left; apply error_stays; reflexivity|].
      assert (Ls : forall x, lost target (snoc v x) left).
      { intros x. destruct L as [L|L]; [left; rewrite length_snoc; cbn in L; lia|right].
        intros H. apply L, (pre_snoc _ _ _ H). }
      destruct (Ascii.eqb c "&").
      { apply IH2. destruct L as [L|L]; [left; cbn in L; lia|right; exact L]. }
      destruct (white c); [apply IH1, Ls|].
      destruct (N_of_ascii c <? 32)%N; [left; apply error_stays; reflexivity|]. apply IH1, Ls.
    + intros v e L. cbn zeta. cbn [append read_chars].
      unfold read_char. cbn [rd_mode rd_open rd_top].
      destruct (Ascii.eqb c ";").
      * destruct (entity e) as [x|]; [|left; apply error_stays; reflexivity]. apply IH1.
        destruct L as [L|L]; [left; rewrite length_snoc; cbn in L; lia|right].
        intros H. apply L, (pre_snoc _ _ _ H).
      * destruct (name_char c); [|left; apply error_stays; reflexivity]. apply IH2.
        destruct L as [L|L]; [left; cbn in L; lia|right; exact L].
Qed.

Definition plain_charb (c : ascii) : bool :=
  (32 <=? N_of_ascii c)%N && negb (Ascii.eqb c quote) && negb (Ascii.eqb c "<") && negb (Ascii.eqb c "&").
Lemma plain_charb_iff c : plain_charb c = true <-> plain_char c.
Proof.
  unfold plain_charb, plain_char, quote. rewrite !andb_true_iff, !Bool.negb_true_iff, !Ascii.eqb_neq, N.leb_le. tauto.
Qed.
Lemma plain_dec s : {plain_text s} + {~ plain_text s}.
Proof.
  induction s as [|c s IH]; [left; exact I|]. cbn. destruct (plain_charb c) eqn:E.
  - apply plain_charb_iff in E. destruct IH; [left|right]; tauto.
  - right. intros [H _]. apply plain_charb_iff in H. congruence.
Qed.

Lemma bad_value target n a k o t rest : ~ plain_text target ->
  let r := read_chars (Reader (AttrVal n a k "") o t) (target ++ String quote rest)%string in
  rd_mode r = Error \/
  exists w rest', w <> target /\ r = read_chars (Reader (AttrEnd n (a ++ [(k, w)])) o t) rest'.
Proof.
  intros H.
  assert (G : forall tail v, ~ plain_text tail -> target = (v ++ tail)%string ->
    let r := read_chars (Reader (AttrVal n a k v) o t) (tail ++ String quote rest)%string in
    rd_mode r = Error \/
    exists w rest', w <> target /\ r = read_chars (Reader (AttrEnd n (a ++ [(k, w)])) o t) rest').
  2:{ apply (G target ""); [exact H|reflexivity]. }
  induction tail as [|c tail IH]; intros v Hp Et; [exfalso; apply Hp; exact I|].
  cbn zeta. cbn [append read_chars].
  destruct (plain_charb c) eqn:Ec.
  - apply plain_charb_iff in Ec.
    assert (E : read_char (Reader (AttrVal n a k v) o t) c = Reader (AttrVal n a k (snoc v c)) o t).
    { pose proof (read_val (String c "") n a k v o t (conj Ec I)) as E. cbn [read_chars] in E.
      rewrite E. unfold snoc. reflexivity. }
    rewrite E. apply IH.
    + intros Hp'. apply Hp. split; assumption.
    + rewrite snoc_app. exact Et.
  - unfold read_char. cbn [rd_mode rd_open rd_top].
    assert (Hn : ~ plain_char c) by (rewrite <- plain_charb_iff; congruence).
    destruct (Ascii.eqb_spec c (ascii_of_nat 34)) as [E|E].
    { right. exists v. eexists. split; [|reflexivity]. intros Ev. rewrite Ev in Et.
      apply (f_equal String.length) in Et. rewrite slen_app in Et. cbn in Et. lia. }
    destruct (Ascii.eqb_spec c "<") as [E1|E1]; [left; apply error_stays; reflexivity|].
    destruct (Ascii.eqb_spec c "&") as [E2|E2].
    { apply lost_value. left. rewrite Et, slen_app. cbn. lia. }
    assert (Hc : (N_of_ascii c < 32)%N).
    { destruct (N.ltb_spec (N_of_ascii c) 32) as [L|L]; [exact L|]. exfalso. apply Hn. split; [lia|]. auto. }
    destruct (white c) eqn:W.
    + apply lost_value. right. intros [r Er]. rewrite Et, snoc_app in Er.
      assert (Ei : String c tail = String " " r).
      { clear -Er. induction v as [|x v IH]; cbn in Er; [exact Er|]. injection Er as Er. apply IH, Er. }
      injection Ei as Ec' _. rewrite Ec' in Hc. vm_compute in Hc. discriminate.
    + rewrite (proj2 (N.ltb_lt _ _) Hc). left. apply error_stays. reflexivity.
Qed.

(** * The report *)
Lemma fold_text {A} (f : A -> string) l : forall p,
  fold_left (fun os r => os ++ f r)%string l p = (p ++ fold_left (fun os r => os ++ f r)%string l "")%string.
Proof.
  induction l as [|x l IH]; intros p; cbn [fold_left]; [rewrite str_app_nil; reflexivity|].
  rewrite IH, (IH ("" ++ f x)%string). rewrite str_app_assoc. reflexivity.
Qed.

Lemma first_bad {A} (P : A -> Prop) (D : forall x, {P x} + {~ P x}) l :
  ~ Forall P l -> exists l1 x l2, l = l1 ++ x :: l2 /\ Forall P l1 /\ ~ P x.
Proof.
  induction l as [|x l IH]; intros H; [exfalso; apply H; constructor|].
  destruct (D x) as [Hx|Hx].
  - destruct IH as (l1 & y & l2 & E & F & N). { intros F. apply H. constructor; assumption. }
    exists (x :: l1), y, l2. subst l. split; [reflexivity|]. split; [constructor; assumption|exact N].
  - exists [], x, l. repeat split; [constructor|exact Hx].
Qed.

Lemma Forall2_len {A B} (R : A -> B -> Prop) l l' : Forall2 R l l' -> List.length l = List.length l'.
Proof. induction 1; cbn; congruence. Qed.

Section Junit.
Variable fmt_secs : Z -> string.
Hypothesis Hsecs : forall d, plain_text (fmt_secs d).

(** The start of the report, up to the first run. *)
Lemma read_head now suite er t : plain_text suite -> plain_text now ->
  exists attrs, forall body,
  read_chars (Reader Outside [] [])
    ("<?xml version=""1.0"" encoding=""UTF-8""?>" ++ newline ++
     xml_open "testsuite"
       [attr "name" suite; attr "tests" (dec_nat (List.length (er_runs er)));
        attr "failures" (dec_nat (stat_get (er_stats er) FAIL));
        attr "time" (dec_Z t ++ "s"); attr "timestamp" now] ++ body)%string =
  read_chars (Reader Outside [("testsuite", attrs, [])] []) body.
Proof.
  intros Hs Hn.
  set (tests := dec_nat (List.length (er_runs er))). set (fails := dec_nat (stat_get (er_stats er) FAIL)).
  set (time := (dec_Z t ++ "s")%string).
  exists [("name", suite); ("tests", tests); ("failures", fails); ("time", time); ("timestamp", now)]. intros body.
  assert (E : xml_open "testsuite" [attr "name" suite; attr "tests" tests; attr "failures" fails;
                                    attr "time" time; attr "timestamp" now] =
     ("<testsuite name=""" ++ suite ++ """ tests=""" ++ tests ++ """ failures=""" ++ fails ++
      """ time=""" ++ time ++ """ timestamp=""" ++ now ++ """>" ++ newline)%string).
  { unfold xml_open, attr. cbn [fold_left]. rewrite !str_app_assoc. reflexivity. }
  rewrite E.
  rewrite (read_app "<?xml version=""1.0"" encoding=""UTF-8""?>"). change (read_chars (Reader Outside [] []) "<?xml version=""1.0"" encoding=""UTF-8""?>") with (Reader Outside [] []).
  rewrite (read_app newline). change (read_chars (Reader Outside [] []) newline) with (Reader Outside [] []).
  rewrite read_app, (read_app "<testsuite name="""). change (read_chars (Reader Outside [] []) "<testsuite name=""") with
    (Reader (AttrVal "testsuite" [] "name" "") [] []).
  rewrite (read_app suite), read_val0 by exact Hs.
  rewrite (read_app """ tests="""). change (read_chars (Reader (AttrVal "testsuite" [] "name" suite) [] []) """ tests=""") with
    (Reader (AttrVal "testsuite" [("name", suite)] "tests" "") [] []).
  rewrite (read_app tests), read_val0 by apply plain_dec_nat.
  rewrite (read_app """ failures="""). change (read_chars (Reader (AttrVal "testsuite" [("name", suite)] "tests" tests) [] []) """ failures=""") with
    (Reader (AttrVal "testsuite" [("name", suite); ("tests", tests)] "failures" "") [] []).
  rewrite (read_app fails), read_val0 by apply plain_dec_nat.
  rewrite (read_app """ time="""). change (read_chars (Reader (AttrVal "testsuite" [("name", suite); ("tests", tests)] "failures" fails) [] []) """ time=""") with
    (Reader (AttrVal "testsuite" [("name", suite); ("tests", tests); ("failures", fails)] "time" "") [] []).
  assert (Hp : plain_text time).
  { apply plain_app; [apply plain_dec_Z|]. vm_compute. split; [|exact I]. split; [discriminate|]. repeat split; discriminate. }
  rewrite (read_app time), read_val0 by exact Hp.
  rewrite (read_app """ timestamp="""). change (read_chars (Reader (AttrVal "testsuite" [("name", suite); ("tests", tests); ("failures", fails)] "time" time) [] []) """ timestamp=""") with
    (Reader (AttrVal "testsuite" [("name", suite); ("tests", tests); ("failures", fails); ("time", time)] "timestamp" "") [] []).
  rewrite (read_app now), read_val0 by exact Hn.
  reflexivity.
Qed.

Lemma case_text r rest :
  (junit_case fmt_secs r ++ rest)%string =
  ("<testcase name=""" ++ r_name r ++ String quote
     (" time=""" ++ fmt_secs (r_end r - r_start r)%Z ++ """>" ++ newline ++
      (if (r_retcode r =? 0)%Z then "" else "<failure message=""task failed""/>" ++ newline) ++
      xml_close "testcase" ++ rest))%string.
Proof.
  unfold junit_case, xml_open, attr. cbn [fold_left]. rewrite !str_app_assoc. reflexivity.
Qed.

Lemma suite_text suite a b c d rest :
  (xml_open "testsuite" [attr "name" suite; a; b; c; d] ++ rest)%string =
  ("<testsuite name=""" ++ suite ++ String quote (" " ++ a ++ " " ++ b ++ " " ++ c ++ " " ++ d ++ ">" ++ newline ++ rest))%string.
Proof. unfold xml_open, attr. cbn [fold_left]. rewrite !str_app_assoc. reflexivity. Qed.

Lemma settled_one w : settled "name" w [("name", w)].
Proof. split; [left; reflexivity|]. intros v [E|[]]. injection E as ->. reflexivity. Qed.

(** The first name that is not plain is not among the names read. *)
Lemma bad_case r n a ch rest x : ~ plain_text (r_name r) ->
  read_chars (Reader Outside [(n, a, ch)] []) (junit_case fmt_secs r ++ rest)%string = Reader Outside [] [x] ->
  forall y, nth_error (el_children x) (List.length ch) = Some y -> ~ In ("name", r_name r) (el_attrs y).
Proof.
  intros Hp E y Hy Hin. rewrite case_text, (read_app "<testcase name=""") in E.
  change (read_chars (Reader Outside [(n, a, ch)] []) "<testcase name=""") with
    (Reader (AttrVal "testcase" [] "name" "") [(n, a, ch)] []) in E.
  set (tail := (" time=""" ++ _)%string) in E.
  destruct (bad_value (r_name r) "testcase" [] "name" [(n, a, ch)] [] tail Hp) as [F|(w & rest' & Hw & F)].
  - rewrite E in F. discriminate F.
  - rewrite F in E. cbn [app] in E.
    destruct (read_settled "name" w rest' (Reader (AttrEnd "testcase" [("name", w)]) [(n, a, ch)] [])
                [0; List.length ch] [("name", w)] x I) as (a' & G & S); [| |exact E|].
    + cbn. rewrite nth_error_app2, Nat.sub_diag by lia. reflexivity.
    + apply settled_one.
    + cbn in G. rewrite Hy in G. cbn in G. injection G as <-. destruct S as [_ S]. apply Hw. symmetry. apply S, Hin.
Qed.

Lemma junit_exact now suite er t : runtime_sum er = Some t -> plain_text now ->
  (exists text attrs cases, generate_junit_xml fmt_secs now suite er = Some text /\
     parse_xml text = Some (Elem "testsuite" attrs cases) /\ In ("name", suite) attrs /\
     Forall2 (fun r x => In ("name", r_name r) (el_attrs x)) (er_runs er) cases) <->
  plain_text suite /\ forall r, In r (er_runs er) -> plain_text (r_name r).
Proof.
  intros Ht Hn. split.
  2:{ intros [Hs Hr]. apply (junit_names fmt_secs now suite er t Ht Hs Hn).
      apply Forall_forall. intros r Hin. split; [apply Hr, Hin|apply Hsecs]. }
  intros (text & attrs & cases & Eg & Ep & Hname & Hcases).
  unfold generate_junit_xml in Eg. rewrite Ht in Eg. cbn [obind] in Eg.
  match type of Eg with Some ?a = Some ?b => assert (Eg' : a = b) by congruence end. clear Eg. rename Eg' into Eg.
  unfold parse_xml in Ep. remember (read_chars (Reader Outside [] []) text) as st eqn:Est.
  assert (Ex : st = Reader Outside [] [Elem "testsuite" attrs cases]).
  { destruct st as [m o tp]. destruct m; try discriminate. destruct o; try discriminate.
    destruct tp as [|x [|? ?]]; try discriminate. injection Ep as ->. reflexivity. }
  rewrite Ex in Est. clear Ex Ep.
  destruct (plain_dec suite) as [Hs|Hs].
  - split; [exact Hs|].
    destruct (read_head now suite er t Hs Hn) as (attrs0 & Hh).
    rewrite <- Eg, Hh in Est. clear Hh Eg.
    destruct (Forall_dec (fun r => plain_text (r_name r)) (fun r => plain_dec (r_name r)) (er_runs er)) as [F|F].
    { apply Forall_forall. exact F. }
    exfalso.
    destruct (first_bad _ (fun r => plain_dec (r_name r)) _ F) as (l1 & r & l2 & El & F1 & Nr).
    rewrite El in Est. rewrite fold_left_app in Est. cbn [fold_left] in Est.
    rewrite fold_text, !str_app_assoc, read_app in Est.
    rewrite read_all_cases in Est.
    2:{ eapply Forall_impl; [|exact F1]. intros r' H'. cbn beta. split; [exact H'|apply Hsecs]. }
    cbn [app] in Est. symmetry in Est.
    rewrite El in Hcases. apply Forall2_app_inv_l in Hcases as (c1 & c2 & H1 & H2 & ->).
    inversion H2 as [|? y ? c3 Hy H3]; subst.
    apply (bad_case r _ _ _ _ _ Nr Est y); [|exact Hy].
    cbn [el_children]. rewrite map_length, (Forall2_len _ _ _ H1), nth_error_app2, Nat.sub_diag by lia. reflexivity.
  - exfalso. rewrite <- Eg in Est. symmetry in Est.
    rewrite (read_app "<?xml version=""1.0"" encoding=""UTF-8""?>") in Est.
    change (read_chars (Reader Outside [] []) "<?xml version=""1.0"" encoding=""UTF-8""?>") with (Reader Outside [] []) in Est.
    rewrite (read_app newline) in Est. change (read_chars (Reader Outside [] []) newline) with (Reader Outside [] []) in Est.
    rewrite suite_text in Est. set (tail := (" " ++ _)%string) in Est.
    rewrite (read_app "<testsuite name=""") in Est.
    change (read_chars (Reader Outside [] []) "<testsuite name=""") with (Reader (AttrVal "testsuite" [] "name" "") [] []) in Est.
    destruct (bad_value suite "testsuite" [] "name" [] [] tail Hs) as [F|(w & rest' & Hw & F)].
    + rewrite Est in F. discriminate F.
    + rewrite F in Est. cbn [app] in Est.
      destruct (read_settled "name" w rest' (Reader (AttrEnd "testsuite" [("name", w)]) [] [])
                  [0] [("name", w)] (Elem "testsuite" attrs cases) I) as (a' & G & S); [| |exact Est|].
      * reflexivity.
      * apply settled_one.
      * cbn in G. injection G as <-. destruct S as [_ S]. apply Hw. symmetry. apply S, Hname.
Qed.
End Junit.
