(** The lines printed by the default visitor. *)
From Coq Require Import String Ascii Lia.
From Verif Require Import Model.Common Model.Records Model.Jobs Model.TaskSet Model.Dag Model.Sched Model.Exec Model.Text
     Model.Process Model.Format Model.Report Model.Visitor Spec.Graph Spec.Trace Spec.Xml Spec.Report
     Proofs.Sets Proofs.TraceFacts Proofs.TextFacts Proofs.ProcessFacts Proofs.FormatFacts Proofs.ReportFacts
     Proofs.ExecInv Proofs.ExecStep Proofs.LogFacts Proofs.ExecProps Proofs.ExecProps2 Proofs.ExecProps3 Proofs.ExecProps4
     Proofs.VisitorFacts.
Open Scope string_scope.
Open Scope nat_scope.
Open Scope list_scope.

Definition clean (s : string) : Prop := ~ has_char (ascii_of_nat 27) s.

Lemma strip_clean a b : clean a -> strip false (a ++ b) = (a ++ strip false b)%string.
Proof.
  induction a as [|c a IH]; intros H; [reflexivity|]. unfold clean in *. cbn [has_char] in H. cbn [append strip].
  destruct (Ascii.eqb_spec c (ascii_of_nat 27)); [exfalso; tauto|]. rewrite IH by tauto. reflexivity.
Qed.
Lemma clean_app a b : clean a -> clean b -> clean (a ++ b).
Proof. unfold clean. intros Ha Hb. induction a as [|c a IH]; cbn in *; tauto. Qed.
Lemma clean_repeat c n : c <> ascii_of_nat 27 -> clean (repeat_char c n).
Proof. intros H. unfold clean. induction n; cbn; [tauto|]. intros [E|E]; congruence || tauto. Qed.
Lemma clean_plain s : plain_text s -> clean s.
Proof.
  unfold clean. induction s as [|c s IH]; cbn; [tauto|]. intros ((H & _) & Hs) [->|E]; [|exact (IH Hs E)].
  vm_compute in H. apply H. reflexivity.
Qed.
Lemma clean_left w s : clean s -> clean (pad_right w s).
Proof. intros H. apply clean_app; [exact H|]. apply clean_repeat. discriminate. Qed.
Lemma clean_right c w s : c <> ascii_of_nat 27 -> clean s -> clean (pad_left c w s).
Proof. intros Hc H. apply clean_app; [|exact H]. apply clean_repeat. exact Hc. Qed.
Lemma clean_nat n : clean (dec_nat n).
Proof. apply clean_plain, plain_dec_nat. Qed.
Lemma clean_Z z : clean (dec_Z z).
Proof. apply clean_plain, plain_dec_Z. Qed.
Lemma clean_tag k : clean (tag k).
Proof. unfold clean. destruct k; cbn; intuition discriminate. Qed.
Lemma right_pad w s : pad_left " " w s = right_in w s.
Proof. unfold pad_left, right_in. now rewrite blanks_repeat. Qed.
Lemma left_pad w s : pad_right w s = left_in w s.
Proof. unfold pad_right, left_in. now rewrite blanks_repeat. Qed.

(** The codes in front of a text. *)
Lemma strip_code x b : In x [START; OK_c; FAIL_c; DEPF_c; SKIP_c; GRAY; END_c; RESET] ->
  strip false (x ++ b) = strip false b.
Proof. cbn [In]. intros H. decompose [or] H; subst; try reflexivity. contradiction. Qed.
Lemma strip_cursor b : strip false (no_cursor ++ b) = String (ascii_of_nat 13) (strip false b).
Proof. reflexivity. Qed.

Lemma colour_of k : exists x, stat_to_color (status_sv k) = Some x /\
  In x [START; OK_c; FAIL_c; DEPF_c; SKIP_c; GRAY; END_c; RESET].
Proof. destruct k; eexists; (split; [reflexivity|cbn; tauto]). Qed.
Lemma tag_sv k : status_sv k = tag k.
Proof. destruct k; reflexivity. Qed.

(** The column of the counter. *)
Lemma counter_column count total : 1 <= count <= total ->
  exists a b w, fmt_counter count total = Some a /\ fmt_counter total total = Some b /\
    has_digits total w /\ number w count a /\ number w total b /\ clean a /\ clean b /\
    counter_width total = Some w.
Proof.
  intros H. destruct (fmt_counter_spec count total H) as (a & Ea & Va & Da).
  destruct (fmt_counter_spec total total ltac:(lia)) as (b & Eb & Vb & Db).
  exists a, b, (String.length a). split; [exact Ea|]. split; [exact Eb|]. split; [exact Da|].
  unfold fmt_counter in Ea, Eb. unfold counter_width in *. destruct total as [|t]; [lia|].
  injection Ea as <-. injection Eb as <-. split; [split; [exact Va|reflexivity]|].
  assert (L : forall n, 1 <= n <= S t -> String.length (pad_left "0" (log10 (S t) + 1) (dec_nat n)) = log10 (S t) + 1).
  { intros n Hn. unfold pad_left. rewrite slen_app, slen_repeat.
    pose proof (dec_nat_len_le n (S t) ltac:(lia) ltac:(lia)) as X. rewrite (dec_nat_len (S t)) in X by lia. lia. }
  split; [split; [exact Vb|]; rewrite !L by lia; reflexivity|].
  split; [apply clean_right; [discriminate|apply clean_nat]|]. split; [apply clean_right; [discriminate|apply clean_nat]|].
  rewrite L by exact H. reflexivity.
Qed.

Definition clock (hms : string) : string := (GRAY ++ hms ++ RESET)%string.

Lemma strip_text name t b : clean name -> fmt_text name = Some t ->
  strip false (t ++ b) = (String.substring 0 60 (name ++ blanks 60) ++ strip false b)%string.
Proof.
  intros H E. unfold fmt_text in E. cbn zeta in E.
  set (str := pad_right 60 (str_take 60 name)) in *.
  pose proof (gray_slashes_spec (String.length str) "" str (slashes_le str)) as G. cbn [append String.length] in G.
  assert (t = colour str) by congruence. subst t. clear E G.
  assert (Es : str = substring 0 60 (name ++ blanks 60)) by apply take_pad. rewrite <- Es.
  assert (C : clean str).
  { rewrite Es. intros Hc. apply H. eapply has_char_sub; [exact Hc|discriminate]. }
  clear Es. revert C. unfold clean. induction str as [|c s IH]; intros C; [reflexivity|]. cbn [has_char] in C. cbn [colour].
  destruct (Ascii.eqb_spec c "/") as [->|Hc].
  - rewrite str_app_assoc, strip_app_delim, IH by tauto. reflexivity.
  - cbn [append strip]. destruct (Ascii.eqb_spec c (ascii_of_nat 27)); [exfalso; tauto|]. rewrite IH by tauto. reflexivity.
Qed.

Lemma strip_nil : strip false "" = "".
Proof. reflexivity. Qed.
Ltac literal := unfold clean; cbn; intuition discriminate.
Ltac is_clean := first
  [ assumption | apply clean_nat | apply clean_Z | apply clean_tag
  | apply clean_left; is_clean | apply clean_right; [discriminate|is_clean]
  | literal | apply clean_repeat; discriminate ].
Ltac coloured := first [assumption | cbn [In]; tauto].
Ltac strips := rewrite ?str_app_assoc; repeat (first
  [ rewrite strip_code by coloured
  | rewrite strip_cursor
  | rewrite strip_clean by is_clean ]; rewrite ?str_app_assoc).

(** A line with a counter, a status and a name. *)
Lemma task_line hms count total status colour name dur x :
  1 <= count <= total -> clean hms -> clean name -> clean status ->
  stat_to_color status = Some colour -> In colour [START; OK_c; FAIL_c; DEPF_c; SKIP_c; GRAY; END_c; RESET] ->
  match dur with Some d => clean d | None => True end ->
  fmt_text name = Some x ->
  exists a b w, has_digits total w /\ number w count a /\ number w total b /\
    exists text, format_line (clock hms) count (Some total) status x dur = Some text /\
    forall rest, strip false (text ++ rest) =
      (hms ++ "  " ++ a ++ "/" ++ b ++ "  " ++ right_in 4 status ++ "  " ++
       String.substring 0 60 (name ++ blanks 60) ++ "  " ++
       match dur with Some d => "  " ++ right_in 8 d | None => "" end ++ strip false rest)%string.
Proof.
  intros Hc Hh Hn Hs Ec Ic Hd Ex.
  destruct (counter_column count total Hc) as (a & b & w & Ea & Eb & Dw & Na & Nb & Ca & Cb & _).
  exists a, b, w. split; [exact Dw|]. split; [exact Na|]. split; [exact Nb|].
  unfold format_line. rewrite Ea, Eb, Ec. cbn [obind]. eexists. split; [reflexivity|]. intros rest.
  unfold clock, fmt_status. strips. rewrite (strip_text name x _ Hn Ex). rewrite right_pad. do 10 f_equal.
  strips. f_equal. destruct dur as [d|]; [|reflexivity]. unfold fmt_dur. strips. rewrite right_pad. reflexivity.
Qed.

Lemma end_line_text hms er r : S (List.length (er_runs er)) <= er_total er -> clean hms -> clean (r_name r) ->
  exists a b w text, has_digits (er_total er) w /\
    number w (S (List.length (er_runs er))) a /\ number w (er_total er) b /\
    render (clock hms) (PEnd er r) = Some text /\
    uncoloured text =
      (hms ++ "  " ++ a ++ "/" ++ b ++ "  " ++ right_in 4 (tag (r_status r)) ++ "  " ++
       String.substring 0 60 (r_name r ++ blanks 60) ++ "  " ++
       match r_status r with
       | OK | FAIL => "  " ++ right_in 8 (dec_Z (Z.quot (r_end r - r_start r) 1000000) ++ "ms")
       | _ => ""
       end ++ String (ascii_of_nat 10) "")%string.
Proof.
  intros Hc Hh Hn. cbn [render]. unfold format_run_end. destruct (fmt_text_defined (r_name r)) as [x Ex].
  rewrite Ex. cbn [obind]. rewrite Nat.add_1_r. destruct (colour_of (r_status r)) as (colour & Ec & Ic).
  set (dur := match r_status r with OK | FAIL => _ | _ => _ end).
  destruct (task_line hms _ _ (status_sv (r_status r)) colour (r_name r) dur x (conj (le_n_S _ _ (Nat.le_0_l _)) Hc) Hh Hn
    ltac:(rewrite tag_sv; apply clean_tag) Ec Ic) as (a & b & w & Dw & Na & Nb & text & Et & Es).
  { subst dur. destruct (r_status r); try exact I; (apply clean_app; [apply clean_Z|literal]). }
  { exact Ex. }
  exists a, b, w, (text ++ newline)%string. split; [exact Dw|]. split; [exact Na|]. split; [exact Nb|].
  split; [rewrite Et; reflexivity|]. unfold uncoloured. rewrite Es, tag_sv. do 11 f_equal.
  subst dur. destruct (r_status r); reflexivity.
Qed.

Lemma start_line_text hms er name : S (List.length (er_runs er)) <= er_total er -> clean hms -> clean name ->
  exists a b w text, has_digits (er_total er) w /\
    number w (S (List.length (er_runs er))) a /\ number w (er_total er) b /\
    render (clock hms) (PStart er name) = Some text /\
    uncoloured text =
      (hms ++ "  " ++ a ++ "/" ++ b ++ "  STRT  " ++
       String.substring 0 60 (name ++ blanks 60) ++ "  " ++ String (ascii_of_nat 13) "")%string.
Proof.
  intros Hc Hh Hn. cbn [render]. unfold format_status. destruct (fmt_text_defined name) as [x Ex].
  rewrite Ex. cbn [obind]. rewrite Nat.add_1_r.
  destruct (task_line hms _ _ "STRT" START name None x (conj (le_n_S _ _ (Nat.le_0_l _)) Hc) Hh Hn
    ltac:(literal) eq_refl ltac:(cbn; tauto) I Ex) as (a & b & w & Dw & Na & Nb & text & Et & Es).
  exists a, b, w, (text ++ no_cursor)%string. split; [exact Dw|]. split; [exact Na|]. split; [exact Nb|].
  split; [rewrite Et; reflexivity|]. unfold uncoloured. rewrite Es. reflexivity.
Qed.

Lemma stat_text n rest name colour : In colour [START; OK_c; FAIL_c; DEPF_c; SKIP_c; GRAY; END_c; RESET] -> clean name ->
  strip false ((if (0 <? n)%nat then "" else GRAY) ++ name ++ ": " ++ (if (0 <? n)%nat then colour else GRAY) ++
               pad_right 5 (dec_nat n) ++ RESET ++ rest) =
  (name ++ ": " ++ left_in 5 (dec_nat n) ++ strip false rest)%string.
Proof.
  intros Hc Hn.
  assert (X : forall q, strip false ((if (0 <? n)%nat then "" else GRAY) ++ q) = strip false q)
    by (intros q; destruct (0 <? n)%nat; [reflexivity|apply strip_code; cbn; tauto]).
  assert (Y : forall q, strip false ((if (0 <? n)%nat then colour else GRAY) ++ q) = strip false q)
    by (intros q; destruct (0 <? n)%nat; apply strip_code; [exact Hc|cbn; tauto]).
  rewrite X. rewrite (strip_clean name) by exact Hn.
  rewrite (strip_clean ": ") by literal. rewrite Y. strips. rewrite left_pad. reflexivity.
Qed.

Lemma summary_text hms er : er_runs er <> [] -> 1 <= er_total er -> clean hms ->
  exists secs a w text, runtime_sum er = Some secs /\ has_digits (er_total er) w /\ number w (er_total er) a /\
    render (clock hms) (PExecEnd er) = Some text /\
    uncoloured text =
      (String (ascii_of_nat 13) hms ++ "  " ++ blanks (S w) ++ a ++ "    " ++
       "run: " ++ left_in 9 (dec_nat (stat_get (er_stats er) OK + stat_get (er_stats er) FAIL)) ++
       "  OK: " ++ left_in 5 (dec_nat (stat_get (er_stats er) OK)) ++
       "  SKIP: " ++ left_in 5 (dec_nat (stat_get (er_stats er) SKIP)) ++
       "  DEPF: " ++ left_in 5 (dec_nat (stat_get (er_stats er) DEPF)) ++
       "  FAIL: " ++ left_in 5 (dec_nat (stat_get (er_stats er) FAIL)) ++
       "    " ++ right_in 8 (dec_Z secs ++ "s") ++ String (ascii_of_nat 10) "")%string.
Proof.
  intros Hr Ht Hh. cbn [render]. unfold format_exec_end. destruct (runtime_sum_spec er Hr) as (k & _ & _ & -> & _).
  cbn [obind]. destruct (counter_column (er_total er) (er_total er) ltac:(lia)) as (a & b & w & Ea & _ & Dw & Na & _ & Ca & _ & Ew).
  exists k, a, w. unfold format_line. rewrite Ew, Ea. cbn [obind]. eexists.
  split; [reflexivity|]. split; [exact Dw|]. split; [exact Na|]. split; [reflexivity|].
  unfold uncoloured. rewrite strip_cursor. match goal with |- _ = (String ?c hms ++ ?q)%string =>
    change (String c hms ++ q)%string with (String c (hms ++ q)) end. f_equal. unfold clock. rewrite Nat.add_1_r.
  rewrite <- blanks_repeat.
  change (stat_to_color END_c) with (@None string). cbv iota. change (fmt_status END_c "") with (END_c ++ RESET)%string.
  unfold end_text. cbn [fold_left status_sv].
  change (stat_to_color "OK") with (Some OK_c). change (stat_to_color "SKIP") with (Some SKIP_c).
  change (stat_to_color "DEPF") with (Some DEPF_c). change (stat_to_color "FAIL") with (Some FAIL_c).
  assert (Cb : clean (blanks (S w))) by (rewrite blanks_repeat; apply clean_repeat; discriminate).
  strips.
  rewrite (stat_text (stat_get (er_stats er) OK) _ "OK" OK_c) by (try (cbn; tauto); literal). strips.
  rewrite (stat_text (stat_get (er_stats er) SKIP) _ "SKIP" SKIP_c) by (try (cbn; tauto); literal). strips.
  rewrite (stat_text (stat_get (er_stats er) DEPF) _ "DEPF" DEPF_c) by (try (cbn; tauto); literal). strips.
  rewrite (stat_text (stat_get (er_stats er) FAIL) _ "FAIL" FAIL_c) by (try (cbn; tauto); literal). strips.
  assert (Ck : clean (dec_Z k ++ "s")) by (apply clean_app; [apply clean_Z|literal]).
  unfold fmt_dur, newline. strips. rewrite left_pad, right_pad. reflexivity.
Qed.

(** * The lines of an execution *)
Section Lines.
Variables (c : config) (z : Z) (s : state) (vb : bool) (v : vis) (out : list item).
Hypothesis Hwf : wf_dag (c_dag c).
Hypothesis HR : reachable c z s.
Hypothesis E : watch_exec c (print_visitor vb) (trace s) = VOk v out.
Let total := List.length (node_ids (c_dag c)).

Lemma items_ok i : In i out -> item_ok c vb (s_log s) i.
Proof.
  destruct (watch_log c Hwf vb _ (r_log c z s Hwf HR)) as (q' & out' & E' & _ & W2 & _). fold (trace s) in E'.
  rewrite E in E'. injection E' as _ <-. rewrite Forall_forall in W2. apply W2.
Qed.

Lemma end_item er r : In (PEnd er r) out ->
  er_total er = total /\ S (List.length (er_runs er)) <= total /\
  nth_error (records (trace s)) (List.length (er_runs er)) = Some r.
Proof.
  intros Hi. destruct (items_ok _ Hi) as ((H1 & H2) & x & Hx). apply trace_in in Hx.
  apply in_split in Hx. destruct Hx as (pre & post & Et).
  destruct (shown_record_accounts c z s pre _ post er Hwf HR Et eq_refl) as (Er & _).
  split; [exact H2|]. split; [rewrite H2 in H1; exact H1|]. rewrite Er, Et. apply nth_records.
Qed.

Lemma exec_end_item er : node_ids (c_dag c) <> [] -> In (PExecEnd er) out ->
  er_runs er <> [] /\ er_total er = total /\ er_runs er = records (trace s) /\ List.length (er_runs er) <= total /\
  (forall k, stat_get (er_stats er) k = count_status k (records (trace s))).
Proof.
  intros Hn Hi. pose proof (items_ok _ Hi) as W. cbn [item_ok] in W.
  destruct (log_in c _ _ (r_log c z s Hwf HR) W) as (l1 & l2 & El & [He _] & _).
  cbn [ev_cond] in He. destruct He as ((H1 & _) & Hall).
  assert (Hne : er_runs er <> []).
  { destruct (node_ids (c_dag c)) as [|n ns] eqn:En; [congruence|].
    destruct (Hall n (or_introl eq_refl)) as (r & Hr & _). rewrite H1. intros G. rewrite G in Hr. destruct Hr. }
  clear H1 Hall l1 l2 El. apply trace_in in W. apply in_split in W. destruct W as (pre & post & Et).
  destruct (shown_record_accounts c z s pre _ post er Hwf HR Et eq_refl) as (Er & H2 & H3 & H4).
  assert (Hp : records (trace s) = records pre).
  { rewrite Et, records_app. destruct (after_execution_last c z s pre er post Hwf HR Et) as [[-> | ->] _]; apply app_nil_r. }
  rewrite Hp, <- Er. split; [exact Hne|]. split; [exact H2|]. split; [reflexivity|]. split; [|exact H4].
  rewrite H2 in H3. exact H3.
Qed.
End Lines.

Lemma count_status_le k rs : count_status k rs <= List.length rs.
Proof. unfold count_status. induction rs as [|r rs IH]; cbn; [lia|]. destruct (status_eqb _ _); cbn; lia. Qed.
Lemma slen_blanks n : String.length (blanks n) = n.
Proof. induction n; cbn; congruence. Qed.

Lemma end_lines_text : forall c z s verbose v out hms er r,
  wf_dag (c_dag c) -> reachable c z s ->
  watch_exec c (print_visitor verbose) (trace s) = VOk v out -> In (PEnd er r) out ->
  ~ has_char (ascii_of_nat 27) hms -> ~ has_char (ascii_of_nat 27) (r_name r) ->
  exists text i a b w, render (GRAY ++ hms ++ RESET) (PEnd er r) = Some text /\
    nth_error (records (trace s)) i = Some r /\
    has_digits (List.length (node_ids (c_dag c))) w /\
    number w (S i) a /\ number w (List.length (node_ids (c_dag c))) b /\
    uncoloured text =
      (hms ++ "  " ++ a ++ "/" ++ b ++ "  " ++ right_in 4 (tag (r_status r)) ++ "  " ++
       String.substring 0 60 (r_name r ++ blanks 60) ++ "  " ++
       match r_status r with
       | OK | FAIL => "  " ++ right_in 8 (dec_Z (Z.quot (r_end r - r_start r) 1000000) ++ "ms")
       | _ => ""
       end ++ String (ascii_of_nat 10) "")%string.
Proof.
  intros c z s vb v out hms er r Hwf HR E Hi Hh Hn.
  destruct (end_item c z s vb v out Hwf HR E er r Hi) as (H1 & H2 & H3). rewrite <- H1 in H2.
  destruct (end_line_text hms er r H2 Hh Hn) as (a & b & w & text & D & Na & Nb & Et & Eu). rewrite H1 in D, Nb.
  exists text, (List.length (er_runs er)), a, b, w. auto 10.
Qed.

Lemma start_lines_text : forall c z s verbose v out hms er name,
  wf_dag (c_dag c) -> reachable c z s ->
  watch_exec c (print_visitor verbose) (trace s) = VOk v out -> In (PStart er name) out ->
  ~ has_char (ascii_of_nat 27) hms -> ~ has_char (ascii_of_nat 27) name ->
  exists text i a b w, render (GRAY ++ hms ++ RESET) (PStart er name) = Some text /\
    S i <= List.length (node_ids (c_dag c)) /\
    has_digits (List.length (node_ids (c_dag c))) w /\
    number w (S i) a /\ number w (List.length (node_ids (c_dag c))) b /\
    uncoloured text =
      (hms ++ "  " ++ a ++ "/" ++ b ++ "  STRT  " ++
       String.substring 0 60 (name ++ blanks 60) ++ "  " ++ String (ascii_of_nat 13) "")%string.
Proof.
  intros c z s vb v out hms er name Hwf HR E Hi Hh Hn.
  destruct (items_ok c z s vb v out Hwf HR E _ Hi) as ((H1 & H2) & _).
  destruct (start_line_text hms er name H1 Hh Hn) as (a & b & w & text & D & Na & Nb & Et & Eu). rewrite H2 in *.
  exists text, (List.length (er_runs er)), a, b, w. auto 10.
Qed.

Lemma summary_lines_text : forall c z s verbose v out hms er,
  wf_dag (c_dag c) -> reachable c z s -> node_ids (c_dag c) <> [] ->
  watch_exec c (print_visitor verbose) (trace s) = VOk v out -> In (PExecEnd er) out ->
  ~ has_char (ascii_of_nat 27) hms ->
  exists text a w secs first last, render (GRAY ++ hms ++ RESET) (PExecEnd er) = Some text /\
    has_digits (List.length (node_ids (c_dag c))) w /\ number w (List.length (node_ids (c_dag c))) a /\
    let rs := records (trace s) in
    In first rs /\ In last rs /\ (forall r, In r rs -> r_start first <= r_start r /\ r_end r <= r_end last)%Z /\
    ((secs - 1) * 1000000000 < r_end last - r_start first <= secs * 1000000000)%Z /\
    uncoloured text =
      (String (ascii_of_nat 13) hms ++ "  " ++ blanks (S w) ++ a ++ "    " ++
       "run: " ++ left_in 9 (dec_nat (count_status OK rs + count_status FAIL rs)) ++
       "  OK: " ++ left_in 5 (dec_nat (count_status OK rs)) ++
       "  SKIP: " ++ left_in 5 (dec_nat (count_status SKIP rs)) ++
       "  DEPF: " ++ left_in 5 (dec_nat (count_status DEPF rs)) ++
       "  FAIL: " ++ left_in 5 (dec_nat (count_status FAIL rs)) ++
       "    " ++ right_in 8 (dec_Z secs ++ "s") ++ String (ascii_of_nat 10) "")%string.
Proof.
  intros c z s vb v out hms er Hwf HR Hn E Hi Hh.
  destruct (exec_end_item c z s vb v out Hwf HR E er Hn Hi) as (H1 & H2 & H3 & H4 & H5).
  destruct (summary_text hms er H1) as (secs & a & w & text & Es & D & Na & Et & Eu); [|exact Hh|].
  { rewrite H2. destruct (node_ids (c_dag c)); [congruence|cbn; lia]. }
  destruct (runtime_sum_spec er H1) as (k & first & last & Ek & F & L & M & K).
  rewrite Es in Ek. injection Ek as <-. rewrite H2 in D, Na. rewrite H3 in F, L, M.
  rewrite !H5 in Eu. exists text, a, w, secs, first, last. cbn zeta. auto 10.
Qed.

Lemma len_left w t : String.length t <= w -> String.length (left_in w t) = w.
Proof. intros H. unfold left_in. rewrite slen_app, slen_blanks. lia. Qed.
Lemma len_right w t : String.length t <= w -> String.length (right_in w t) = w.
Proof. intros H. unfold right_in. rewrite slen_app, slen_blanks. lia. Qed.
Lemma len_substring n : forall s, n <= String.length s -> String.length (String.substring 0 n s) = n.
Proof. induction n as [|n IH]; intros [|c s] H; cbn in *; try lia. rewrite IH; lia. Qed.
Lemma dec_len_le a b : 0 < b -> a <= b -> String.length (dec_nat a) <= String.length (dec_nat b).
Proof.
  intros H L. destruct a; [|apply dec_nat_len_le; lia]. rewrite (dec_nat_len b H). change (String.length (dec_nat 0)) with 1. lia.
Qed.

Lemma aligned : forall c z s verbose v out hms hms' er r er' text text',
  wf_dag (c_dag c) -> reachable c z s ->
  watch_exec c (print_visitor verbose) (trace s) = VOk v out ->
  In (PEnd er r) out -> r_status r = OK \/ r_status r = FAIL -> In (PExecEnd er') out ->
  ~ has_char (ascii_of_nat 27) hms -> ~ has_char (ascii_of_nat 27) hms' -> String.length hms = String.length hms' ->
  ~ has_char (ascii_of_nat 27) (r_name r) ->
  String.length (dec_nat (List.length (node_ids (c_dag c)))) <= 5 ->
  String.length (dec_Z (Z.quot (r_end r - r_start r) 1000000)) <= 6 ->
  (forall k, runtime_sum er' = Some k -> String.length (dec_Z k) <= 7) ->
  render (GRAY ++ hms ++ RESET) (PEnd er r) = Some text ->
  render (GRAY ++ hms' ++ RESET) (PExecEnd er') = Some text' ->
  String.length (uncoloured text') = S (String.length (uncoloured text)).
Proof.
  intros c z s vb v out hms hms' er r er' text text' Hwf HR E Hi Hs Hi' Hh Hh' HL Hn Ht Hd Hk R R'.
  destruct (end_item c z s vb v out Hwf HR E er r Hi) as (H1 & H2 & _). rewrite <- H1 in H2.
  assert (Hne : node_ids (c_dag c) <> []) by (intros G; rewrite G in H1; cbn in H1; lia).
  destruct (end_line_text hms er r H2 Hh Hn) as (a & b & w & x & D & (_ & Na) & (_ & Nb) & Et & Eu).
  unfold clock in Et. rewrite R in Et. injection Et as <-.
  destruct (exec_end_item c z s vb v out Hwf HR E er' Hne Hi') as (G1 & G2 & G3 & G4 & G5).
  destruct (summary_text hms' er' G1 ltac:(lia) Hh') as (secs & a' & w' & x & Es & D' & (_ & Na') & Et & Eu').
  unfold clock in Et. rewrite R' in Et. injection Et as <-.
  assert (Ew : w' = w).
  { rewrite G2, <- H1 in D'. destruct D as (D1 & D2 & D3), D' as (D1' & D2' & D3').
    destruct (Nat.lt_trichotomy w w') as [L|[L|L]]; [exfalso|auto|exfalso].
    - pose proof (Nat.pow_le_mono_r 10 w (w' - 1) ltac:(lia) ltac:(lia)). lia.
    - pose proof (Nat.pow_le_mono_r 10 w' (w - 1) ltac:(lia) ltac:(lia)). lia. }
  assert (P : 0 < List.length (node_ids (c_dag c))) by (destruct (node_ids (c_dag c)); [congruence|cbn; lia]).
  assert (B : forall n, n <= List.length (er_runs er') -> String.length (dec_nat n) <= 5).
  { intros n L. pose proof (dec_len_le n _ P ltac:(lia)). lia. }
  assert (S2 : stat_get (er_stats er') OK + stat_get (er_stats er') FAIL <= List.length (er_runs er')).
  { rewrite !G5, <- G3. clear. unfold count_status. induction (er_runs er') as [|y l IH]; cbn; [lia|].
    destruct (r_status y); cbn; lia. }
  assert (S1 : forall k, stat_get (er_stats er') k <= List.length (er_runs er')).
  { intros k. rewrite G5, <- G3. apply count_status_le. }
  pose proof (B _ S2) as B0. pose proof (B _ (S1 OK)) as B1. pose proof (B _ (S1 SKIP)) as B2.
  pose proof (B _ (S1 DEPF)) as B3. pose proof (B _ (S1 FAIL)) as B4. specialize (Hk _ Es).
  assert (Hd2 : String.length (dec_Z (Z.quot (r_end r - r_start r) 1000000) ++ "ms") <= 8) by (rewrite slen_app; cbn; lia).
  assert (Hk2 : String.length (dec_Z secs ++ "s") <= 8) by (rewrite slen_app; cbn; lia).
  assert (Ht2 : String.length (tag (r_status r)) <= 4) by (destruct (r_status r); cbn; lia).
  rewrite Eu, Eu', !slen_app, !len_left, !len_right, len_substring, !slen_blanks by (assumption || rewrite ?slen_app, ?slen_blanks; lia).
  replace (String.length match r_status r with OK | FAIL => _ | _ => _ end) with 10
    by (destruct Hs as [-> | ->]; rewrite slen_app, len_right by assumption; reflexivity).
  cbn [String.length]. lia.
Qed.
