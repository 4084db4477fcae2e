(** What the default visitor shows on a terminal. *)
From Coq Require Import String Ascii Lia.
From Verif Require Import Model.Common Model.Records Model.Jobs Model.TaskSet Model.Dag Model.Sched Model.Exec Model.Text
     Model.Process Model.Format Model.Report Model.Visitor Spec.Graph Spec.Trace Spec.Xml Spec.Report Spec.Screen
     Proofs.Sets Proofs.TraceFacts Proofs.TextFacts Proofs.ProcessFacts Proofs.FormatFacts Proofs.ReportFacts
     Proofs.ExecInv Proofs.ExecStep Proofs.LogFacts Proofs.ExecProps Proofs.ExecProps2 Proofs.ExecProps3 Proofs.ExecProps4
     Proofs.VisitorFacts Proofs.PrintFacts.
Open Scope string_scope.
Open Scope nat_scope.
Open Scope list_scope.

Lemma show_app s a : forall b, show_text s (a ++ b) = show_text (show_text s a) b.
Proof. revert s. induction a as [|c a IH]; intros s b; cbn [append show_text]; [reflexivity|apply IH]. Qed.

(** The row [w] written from the start of a line that showed [old]. *)
Definition at_row (A : list (list cell)) (old : list cell) (cu : bool) (w : list cell) (h : hue) : screen :=
  Screen A (w ++ skipn (List.length w) old) (List.length w) h cu Plain.

Lemma skipn_tail {A} (l : list A) : forall n, skipn 1 (skipn n l) = skipn (S n) l.
Proof. induction l as [|x l IH]; intros [|n]; try reflexivity. cbn [skipn] in *. apply (IH n). Qed.

Lemma row_app h a b : row h (a ++ b) = row h a ++ row h b.
Proof. unfold row. induction a as [|c a IH]; cbn; [reflexivity|]. rewrite IH. reflexivity. Qed.
Lemma row_len h a : List.length (row h a) = String.length a.
Proof. unfold row. induction a as [|c a IH]; cbn; congruence. Qed.
Lemma path_len a : List.length (path_row a) = String.length a.
Proof. unfold path_row. induction a as [|c a IH]; cbn; congruence. Qed.

Lemma no_control c : 32 <= nat_of_ascii c <= 126 ->
  Ascii.eqb c (ascii_of_nat 27) = false /\ Ascii.eqb c (ascii_of_nat 10) = false /\ Ascii.eqb c (ascii_of_nat 13) = false.
Proof.
  intros H. repeat split; match goal with |- Ascii.eqb c ?x = false => destruct (Ascii.eqb_spec c x) as [->|_] end;
    try reflexivity; vm_compute in H; lia.
Qed.

Lemma feed_char A old cu w h c : 32 <= nat_of_ascii c <= 126 ->
  feed (at_row A old cu w h) c = at_row A old cu (w ++ [(c, h)]) h.
Proof.
  intros H. destruct (no_control c H) as (E1 & E2 & E3). unfold feed, at_row. cbn [rd above here col pen cursor].
  rewrite E1, E2, E3. rewrite app_length. cbn [List.length].
  replace (List.length w + 1) with (S (List.length w)) by lia. f_equal.
  rewrite firstn_app, Nat.sub_diag, firstn_all. cbn [firstn]. rewrite app_nil_r, <- app_assoc.
  f_equal. f_equal. rewrite skipn_app. replace (skipn (S (List.length w)) w) with (@nil cell) by (symmetry; apply skipn_all2; lia).
  cbn [app]. replace (S (List.length w) - List.length w) with 1 by lia. rewrite skipn_tail. reflexivity.
Qed.

Lemma show_printable A old cu s : forall w h, printable s ->
  show_text (at_row A old cu w h) s = at_row A old cu (w ++ row h s) h.
Proof.
  induction s as [|c s IH]; intros w h H; cbn [show_text].
  - unfold row. cbn. rewrite app_nil_r. reflexivity.
  - destruct H as [Hc Hs]. rewrite feed_char by exact Hc. rewrite IH by exact Hs. rewrite <- app_assoc. reflexivity.
Qed.

(** The codes. *)
Lemma show_grey A old cu w h : show_text (at_row A old cu w h) GRAY = at_row A old cu w grey.
Proof. reflexivity. Qed.
Lemma show_reset A old cu w h : show_text (at_row A old cu w h) RESET = at_row A old cu w Usual.
Proof. reflexivity. Qed.
Lemma show_end A old cu w h : show_text (at_row A old cu w h) END_c = at_row A old cu w (Hue 45).
Proof. reflexivity. Qed.
Lemma show_start A old cu w h : show_text (at_row A old cu w h) START = at_row A old cu w (Hue 33).
Proof. reflexivity. Qed.
Definition colour_code (k : run_status) : string :=
  match k with OK => OK_c | SKIP => SKIP_c | DEPF => DEPF_c | FAIL => FAIL_c end.
Lemma colour_sv k : stat_to_color (status_sv k) = Some (colour_code k).
Proof. destruct k; reflexivity. Qed.
Lemma show_status A old cu w h k : show_text (at_row A old cu w h) (colour_code k) = at_row A old cu w (hue_of k).
Proof. destruct k; reflexivity. Qed.
Lemma show_newline A old cu w h : List.length old <= List.length w ->
  show_text (at_row A old cu w h) newline = Screen (A ++ [w]) [] 0 h cu Plain.
Proof.
  intros H. unfold at_row. replace (skipn (List.length w) old) with (@nil cell) by (symmetry; apply skipn_all2; exact H).
  rewrite app_nil_r. reflexivity.
Qed.
Lemma show_cursor A old cu w : List.length old <= List.length w ->
  show_text (at_row A old cu w Usual) no_cursor = fresh A w.
Proof.
  intros H. unfold at_row. replace (skipn (List.length w) old) with (@nil cell) by (symmetry; apply skipn_all2; exact H).
  rewrite app_nil_r. reflexivity.
Qed.
Lemma show_cursor0 A old : show_text (fresh A old) no_cursor = fresh A old.
Proof. reflexivity. Qed.
Lemma fresh_row A old : fresh A old = at_row A old true [] Usual.
Proof. reflexivity. Qed.

Lemma printable_app a b : printable a -> printable b -> printable (a ++ b).
Proof. intros Ha Hb. induction a as [|c a IH]; cbn in *; tauto. Qed.
Lemma printable_repeat c n : 32 <= nat_of_ascii c <= 126 -> printable (repeat_char c n).
Proof. intros H. induction n; cbn; [exact I|auto]. Qed.
Lemma printable_right c w s : 32 <= nat_of_ascii c <= 126 -> printable s -> printable (pad_left c w s).
Proof. intros Hc H. apply printable_app; [apply printable_repeat; exact Hc|exact H]. Qed.
Lemma printable_left w s : printable s -> printable (pad_right w s).
Proof. intros H. apply printable_app; [exact H|]. apply printable_repeat. vm_compute. lia. Qed.
Lemma printable_take n : forall s, printable s -> printable (str_take n s).
Proof. induction n as [|n IH]; intros [|c s] H; cbn in *; try exact I. destruct H. auto. Qed.

Lemma printable_digit n : (n < 10)%N -> 32 <= nat_of_ascii (digit n) <= 126.
Proof.
  intros H. destruct (digit_cases n H) as [E|[E|[E|[E|[E|[E|[E|[E|[E|E]]]]]]]]]; rewrite E; vm_compute; lia.
Qed.
Lemma printable_dec_aux f : forall n acc, printable acc -> printable (dec_aux f n acc).
Proof.
  induction f as [|f IH]; intros n acc H; cbn [dec_aux]; [exact H|]. cbn zeta.
  assert (H' : printable (String (digit (n mod 10)) acc))
    by (split; [apply printable_digit, N.mod_lt; discriminate|exact H]).
  destruct (n <? 10)%N; [exact H'|apply IH, H'].
Qed.
Lemma printable_nat n : printable (dec_nat n).
Proof. apply printable_dec_aux. exact I. Qed.
Lemma printable_Z z : printable (dec_Z z).
Proof.
  unfold dec_Z. destruct (z <? 0)%Z; try (apply printable_dec_aux; exact I).
  cbn [append printable]. split; [vm_compute; lia|apply printable_dec_aux; exact I].
Qed.
Lemma printable_tag k : printable (tag k).
Proof. destruct k; vm_compute; lia. Qed.
Lemma zeros_repeat n : zeros n = repeat_char "0" n.
Proof. induction n; cbn; congruence. Qed.

(** A name. *)
Lemma show_delim A old cu w : show_text (at_row A old cu w Usual) GRAY_DELIM = at_row A old cu (w ++ [("/"%char, grey)]) Usual.
Proof.
  unfold GRAY_DELIM. rewrite show_app. change (String esc "[38;5;239m/") with (GRAY ++ "/")%string.
  rewrite show_app, show_grey. rewrite (show_printable _ _ _ "/") by (vm_compute; lia). apply show_reset.
Qed.
Lemma show_coloured A old cu s : forall w, printable s ->
  show_text (at_row A old cu w Usual) (colour s) = at_row A old cu (w ++ path_row s) Usual.
Proof.
  induction s as [|c s IH]; intros w H.
  - unfold path_row. cbn. rewrite app_nil_r. reflexivity.
  - destruct H as [Hc Hs]. cbn [colour]. unfold path_row. cbn [list_ascii_of_string map]. fold (path_row s).
    destruct (Ascii.eqb_spec c "/") as [->|Hx].
    + rewrite show_app, show_delim, IH by exact Hs. rewrite <- app_assoc. reflexivity.
    + cbn [show_text]. rewrite feed_char by exact Hc. rewrite IH by exact Hs. rewrite <- app_assoc. reflexivity.
Qed.
Lemma show_name A old cu w name t : printable name -> fmt_text name = Some t ->
  show_text (at_row A old cu w Usual) t = at_row A old cu (w ++ path_row (String.substring 0 60 (name ++ blanks 60))) Usual.
Proof.
  intros H E. unfold fmt_text in E. cbn zeta in E.
  set (str := pad_right 60 (str_take 60 name)) in *.
  pose proof (gray_slashes_spec (String.length str) "" str (slashes_le str)) as G. cbn [append String.length] in G.
  assert (t = colour str) by congruence. subst t. clear E G.
  assert (C : printable str) by (apply printable_left, printable_take, H).
  rewrite show_coloured by exact C. unfold str. rewrite take_pad. reflexivity.
Qed.

Ltac is_printable := first
  [ assumption | apply printable_nat | apply printable_Z | apply printable_tag
  | apply printable_left; is_printable | apply printable_right; [vm_compute; lia|is_printable]
  | apply printable_app; is_printable
  | solve [vm_compute; lia] | apply printable_repeat; vm_compute; lia ].
Ltac shows := repeat (first
  [ rewrite show_app | rewrite show_grey | rewrite show_reset | rewrite show_end | rewrite show_start
  | rewrite show_status | rewrite show_printable by is_printable ]).

Lemma show_line A old cu time er h code status name dur x :
  S (List.length (er_runs er)) <= er_total er -> printable time -> printable name -> printable status ->
  stat_to_color status = Some code ->
  (forall w k, show_text (at_row A old cu w k) code = at_row A old cu w h) ->
  match dur with Some d => printable d | None => True end ->
  fmt_text name = Some x ->
  exists text, format_line (GRAY ++ time ++ RESET) (List.length (er_runs er) + 1) (Some (er_total er)) status x dur = Some text /\
    show_text (at_row A old cu [] Usual) text =
    at_row A old cu (front time er h status name ++
                     match dur with Some d => row Usual "  " ++ row grey (right_in 8 d) | None => [] end) Usual.
Proof.
  intros Hc Ht Hn Hs Ec Hcode Hd Ex. rewrite Nat.add_1_r.
  unfold format_line, fmt_counter, counter_width. destruct (er_total er) as [|m] eqn:Em; [lia|]. cbn [obind].
  rewrite Ec. eexists. split; [reflexivity|].
  assert (L : log10 (S m) + 1 = String.length (dec_nat (S m))) by (rewrite dec_nat_len; lia). rewrite L.
  unfold fmt_status. shows. rewrite Hcode. shows. rewrite (show_name _ _ _ _ name x Hn Ex). shows.
  unfold front. rewrite Em. cbn zeta. rewrite right_pad.
  assert (P1 : pad_left "0" (String.length (dec_nat (S m))) (dec_nat (S m)) = dec_nat (S m)).
  { unfold pad_left. rewrite Nat.sub_diag. reflexivity. }
  rewrite P1.
  assert (P2 : row Usual (pad_left "0" (String.length (dec_nat (S m))) (dec_nat (S (List.length (er_runs er))))) ++ row Usual "/" =
    row Usual (zeros (String.length (dec_nat (S m)) - String.length (dec_nat (S (List.length (er_runs er))))) ++
      dec_nat (S (List.length (er_runs er))) ++ "/")).
  { rewrite <- row_app. unfold pad_left. rewrite zeros_repeat, str_app_assoc. reflexivity. }
  rewrite <- P2.
  destruct dur as [d|].
  - unfold fmt_dur. shows. rewrite right_pad. rewrite <- !app_assoc. reflexivity.
  - cbn [show_text]. rewrite <- !app_assoc. rewrite ?app_nil_r. reflexivity.
Qed.

(** * Each thing printed *)
Definition front_len (time : string) (er : exec_record) : nat :=
  String.length time + 2 * String.length (dec_nat (er_total er)) + 73.

Lemma front_length time er h status name :
  S (List.length (er_runs er)) <= er_total er -> String.length status <= 4 ->
  List.length (front time er h status name) = front_len time er.
Proof.
  intros Hc Hs. unfold front, front_len. cbn zeta. rewrite !app_length, !row_len, path_len, !slen_app.
  rewrite len_right by exact Hs. rewrite len_substring by (rewrite slen_app, slen_blanks; lia).
  pose proof (dec_nat_len_le (S (List.length (er_runs er))) (er_total er) ltac:(lia) Hc) as X.
  rewrite zeros_repeat, slen_repeat. cbn [String.length]. lia.
Qed.

Lemma show_start_item A old time er name :
  S (List.length (er_runs er)) <= er_total er -> printable time -> printable name ->
  List.length old <= front_len time er ->
  exists text, render (GRAY ++ time ++ RESET) (PStart er name) = Some text /\
    show_text (fresh A old) text = fresh A (start_row time er name).
Proof.
  intros Hc Ht Hn Ho. cbn [render]. unfold format_status. destruct (fmt_text_defined name) as [x Ex].
  rewrite Ex. cbn [obind].
  destruct (show_line A old true time er (Hue 33) START "STRT" name None x Hc Ht Hn ltac:(vm_compute; lia) eq_refl
    ltac:(intros; apply show_start) I Ex) as (text & Et & Es). rewrite Et. cbn [obind].
  eexists. split; [reflexivity|]. rewrite show_app, fresh_row, Es, app_nil_r. fold (start_row time er name).
  apply show_cursor. unfold start_row. rewrite front_length by (exact Hc || (cbn; lia)). exact Ho.
Qed.

Lemma show_end_item A old time er r :
  S (List.length (er_runs er)) <= er_total er -> printable time -> printable (r_name r) ->
  List.length old <= front_len time er ->
  exists text, render (GRAY ++ time ++ RESET) (PEnd er r) = Some text /\
    show_text (fresh A old) text = fresh (A ++ [end_row time er r]) [].
Proof.
  intros Hc Ht Hn Ho. cbn [render]. unfold format_run_end. destruct (fmt_text_defined (r_name r)) as [x Ex].
  rewrite Ex. cbn [obind].
  set (dur := match r_status r with OK | FAIL => _ | _ => _ end).
  destruct (show_line A old true time er (hue_of (r_status r)) (colour_code (r_status r)) (status_sv (r_status r)) (r_name r) dur x Hc Ht Hn
    ltac:(rewrite tag_sv; apply printable_tag) (colour_sv _)
    ltac:(intros; apply show_status)) as (text & Et & Es).
  { subst dur. destruct (r_status r); try exact I; (apply printable_app; [apply printable_Z|vm_compute; lia]). }
  { exact Ex. }
  rewrite Et. cbn [obind]. eexists. split; [reflexivity|].
  assert (X : front time er (hue_of (r_status r)) (status_sv (r_status r)) (r_name r) ++
    match dur with Some d => row Usual "  " ++ row grey (right_in 8 d) | None => [] end = end_row time er r).
  { unfold end_row. rewrite tag_sv. f_equal. subst dur. destruct (r_status r); reflexivity. }
  rewrite X in Es. rewrite show_app, fresh_row, Es. rewrite show_newline; [reflexivity|].
  unfold end_row. rewrite app_length, front_length by (exact Hc || (destruct (r_status r); cbn; lia)). lia.
Qed.

Lemma show_stat A old w k n :
  show_text (at_row A old true w Usual)
    ("  " ++ (if 0 <? n then "" else GRAY) ++ status_sv k ++ ": " ++
     (if 0 <? n then match stat_to_color (status_sv k) with Some c => c | None => "" end else GRAY) ++
     pad_right 5 (dec_nat n) ++ RESET) = at_row A old true (w ++ stat_row k n) Usual.
Proof.
  rewrite colour_sv, tag_sv. unfold stat_row. rewrite row_app. rewrite <- left_pad.
  replace (0 <? n) with (negb (n =? 0)) by (destruct n; reflexivity).
  destruct (n =? 0); cbn [negb]; shows; rewrite <- !app_assoc; reflexivity.
Qed.

Lemma show_end_text A old w er :
  let count := stat_get (er_stats er) in
  show_text (at_row A old true w Usual) (end_text er) =
  at_row A old true (w ++ row Usual ("run: " ++ left_in 9 (dec_nat (count OK + count FAIL))) ++
    stat_row OK (count OK) ++ stat_row SKIP (count SKIP) ++ stat_row DEPF (count DEPF) ++ stat_row FAIL (count FAIL)) Usual.
Proof.
  cbn zeta. unfold end_text. cbn [fold_left].
  rewrite show_app. rewrite (show_app _ _ ("  " ++ (if (0 <? stat_get (er_stats er) DEPF)%nat then _ else _) ++ _)%string).
  rewrite (show_app _ _ ("  " ++ (if (0 <? stat_get (er_stats er) SKIP)%nat then _ else _) ++ _)%string).
  rewrite (show_app _ _ ("  " ++ (if (0 <? stat_get (er_stats er) OK)%nat then _ else _) ++ _)%string).
  rewrite show_printable by is_printable. rewrite !show_stat. rewrite left_pad, <- !app_assoc. reflexivity.
Qed.

Lemma show_summary A old time er : er_runs er <> [] -> 1 <= er_total er -> printable time ->
  List.length old <= front_len time er ->
  exists text, render (GRAY ++ time ++ RESET) (PExecEnd er) = Some text /\
    show_text (fresh A old) text = fresh (A ++ [summary_row time er]) [].
Proof.
  intros Hr Ht Hh Ho. cbn [render]. unfold format_exec_end. destruct (runtime_sum_spec er Hr) as (k & _ & _ & Ek & _).
  rewrite Ek. cbn [obind]. unfold format_line, fmt_counter, counter_width.
  destruct (er_total er) as [|m] eqn:Em; [lia|]. cbn [obind]. eexists. split; [reflexivity|].
  assert (L : log10 (S m) + 1 = String.length (dec_nat (S m))) by (rewrite dec_nat_len; lia). rewrite L.
  assert (P1 : pad_left "0" (String.length (dec_nat (S m))) (dec_nat (S m)) = dec_nat (S m)).
  { unfold pad_left. rewrite Nat.sub_diag. reflexivity. }
  rewrite P1. change (stat_to_color END_c) with (@None string). cbv iota.
  change (fmt_status END_c "") with (END_c ++ RESET)%string.
  rewrite show_app, show_cursor0, fresh_row. shows. rewrite show_end_text. unfold fmt_dur. shows.
  assert (G : forall w, w = summary_row time er -> 
    show_text (at_row A old true w Usual) newline = fresh (A ++ [summary_row time er]) []).
  { intros w ->. rewrite show_newline; [reflexivity|]. unfold front_len in Ho.
    unfold summary_row, stat_row. cbn zeta. rewrite !app_length, !row_len, !slen_app, slen_blanks, Em.
    rewrite Em in Ho. unfold left_in, right_in. rewrite !slen_app, !slen_blanks. cbn [String.length tag]. lia. }
  apply G. clear G. unfold summary_row. cbn zeta. rewrite Em, Ek, <- !left_pad, <- !right_pad.
  rewrite !row_app. rewrite <- !app_assoc, blanks_repeat, Nat.add_1_r. cbn [app]. reflexivity.
Qed.

Lemma printable_in_lines s : forall cur, printable cur -> printable_lines s -> Forall printable (lines_from cur s).
Proof.
  induction s as [|c s IH]; intros cur Hc H; cbn [lines_from].
  - destruct cur; constructor; [exact Hc|constructor].
  - destruct H as [H Hs]. destruct (Ascii.eqb_spec c (ascii_of_nat 10)) as [E|E].
    + constructor; [exact Hc|]. apply IH; [exact I|exact Hs].
    + apply IH; [|exact Hs]. apply printable_app; [exact Hc|]. destruct H as [H|H]; [congruence|]. split; [exact H|exact I].
Qed.

Lemma show_lines ls : forall A, Forall printable ls ->
  show_text (fresh A []) (concat_text (map (fun l => "        " ++ l ++ String (ascii_of_nat 10) "")%string ls)) =
  fresh (A ++ map (fun l => row Usual ("        " ++ l)) ls) [].
Proof.
  induction ls as [|l ls IH]; intros A H; cbn [map concat_text].
  - cbn. rewrite app_nil_r. reflexivity.
  - inversion H as [|x y Hl Hls]; subst. rewrite fresh_row, !show_app.
    rewrite (show_printable _ _ _ "        ") by (vm_compute; lia). rewrite show_printable by exact Hl.
    change (String (ascii_of_nat 10) "") with newline. rewrite show_newline by (cbn; lia).
    change (Screen ?a [] 0 Usual true Plain) with (fresh a []). rewrite IH by exact Hls.
    rewrite <- app_assoc. cbn [app]. rewrite row_app. reflexivity.
Qed.

Lemma show_nested A time o : printable_lines (concat_text (map ch_data o)) ->
  exists text, render (GRAY ++ time ++ RESET) (PNested o) = Some text /\
    show_text (fresh A []) text = fresh (A ++ stays (time, PNested o)) [].
Proof.
  intros H. eexists. split; [reflexivity|]. rewrite format_nested_spec. cbn [stays].
  apply show_lines. apply printable_in_lines; [exact I|exact H].
Qed.

(** A message, over what the line of the cursor shows. *)
Lemma show_over s : forall A old w, printable_lines s ->
  exists rows, show_text (at_row A old true w Usual) (s ++ newline) = fresh (A ++ rows) [].
Proof.
  induction s as [|c s IH]; intros A old w H; cbn [append show_text].
  - eexists [_]. reflexivity.
  - destruct H as [H Hs]. destruct H as [->|H].
    + change (feed (at_row A old true w Usual) (ascii_of_nat 10)) with (at_row (A ++ [w ++ skipn (List.length w) old]) [] true [] Usual).
      destruct (IH (A ++ [w ++ skipn (List.length w) old]) [] [] Hs) as (rows & E). rewrite E, <- app_assoc. eexists. reflexivity.
    + rewrite feed_char by exact H. apply IH. exact Hs.
Qed.
Lemma printable_lines_app a b : printable_lines a -> printable_lines b -> printable_lines (a ++ b).
Proof. intros Ha Hb. induction a as [|c a IH]; cbn in *; tauto. Qed.
Lemma show_note A old time i : is_note i -> note_printable i ->
  exists text rows, render (GRAY ++ time ++ RESET) i = Some text /\
    show_text (fresh A old) text = fresh (A ++ rows) [].
Proof.
  assert (L : forall s, printable_lines s -> exists rows, show_text (fresh A old) (s ++ newline) = fresh (A ++ rows) []).
  { intros s H. rewrite fresh_row. apply show_over. exact H. }
  assert (K : printable_lines newline) by (vm_compute; auto).
  destruct i; cbn [is_note note_printable]; try contradiction; intros _ (H1 & H2); cbn [render].
  - destruct (L ("Job " ++ name ++ " got invalidated: " ++ newline ++ log)%string) as (rows & E).
    + repeat apply printable_lines_app; try assumption; vm_compute; repeat split; right; lia.
    + exists ("Job " ++ name ++ " got invalidated: " ++ newline ++ log ++ newline)%string, rows.
      split; [reflexivity|]. rewrite <- E, !str_app_assoc. reflexivity.
  - destruct (L ("Task " ++ name ++ " invalidated by " ++ by_name)%string) as (rows & E).
    + repeat apply printable_lines_app; try assumption; vm_compute; repeat split; right; lia.
    + exists ("Task " ++ name ++ " invalidated by " ++ by_name ++ newline)%string, rows.
      split; [reflexivity|]. rewrite <- E, !str_app_assoc. reflexivity.
  - destruct (L ("Job " ++ name ++ " run log: " ++ newline ++ log)%string) as (rows & E).
    + repeat apply printable_lines_app; try assumption; vm_compute; repeat split; right; lia.
    + exists ("Job " ++ name ++ " run log: " ++ newline ++ log ++ newline)%string, rows.
      split; [reflexivity|]. rewrite <- E, !str_app_assoc. reflexivity.
Qed.

(** * The order of what is printed *)
Inductive tidy : list item -> Prop :=
| tidy_nil : tidy []
| tidy_note i l : is_note i -> tidy l -> tidy (i :: l)
| tidy_start er name l : tidy l -> tidy (PStart er name :: l)
| tidy_end er r l : tidy l -> tidy (PEnd er r :: l)
| tidy_nested er r o l : tidy l -> tidy (PEnd er r :: PNested o :: l)
| tidy_summary er l : tidy l -> tidy (PExecEnd er :: l).

Lemma tidy_app a : tidy a -> forall b, tidy b -> tidy (a ++ b).
Proof.
  induction 1; intros b Hb; cbn [app];
    [exact Hb|apply tidy_note; [assumption|]|apply tidy_start|apply tidy_end|apply tidy_nested|apply tidy_summary]; auto.
Qed.
Lemma stdout_app a b : on_stdout (a ++ b) = on_stdout a ++ on_stdout b.
Proof. apply filter_app. Qed.

Lemma visit_tidy look tasks v0 e v out :
  visit look tasks v0 e = VOk v out -> tidy (on_stdout out).
Proof.
  destruct v0 as [vb q].
  destruct e as [n|l|n i t|n m|er|er n|n|n|n o|n|n t|er r x|er| |n]; cbn [visit v_verbose v_queued]; unfold with_node;
    repeat match goal with |- context [match look ?y with _ => _ end] => destruct (look y) as [?y|]; [|discriminate] end;
    intros E.
  - injection E as _ <-. destruct (vn_job _); constructor.
  - injection E as _ <-. constructor.
  - injection E as _ <-. destruct vb, i; cbn; repeat constructor.
  - injection E as _ <-. destruct vb; cbn; repeat constructor.
  - injection E as _ <-. constructor.
  - destruct (negb (vn_hidden _) || vb); injection E as _ <-; cbn; [apply tidy_start|]; constructor.
  - injection E as _ <-. constructor.
  - injection E as _ <-. constructor.
  - injection E as _ <-. constructor.
  - injection E as _ <-. constructor.
  - injection E as _ <-. destruct vb; cbn; repeat constructor.
  - assert (G : tidy (on_stdout ((if negb (t_hidden (tasks (r_task r))) || vb || negb (r_retcode r =? 0)%Z then [PEnd er r] else []) ++
        (if vb || negb (r_retcode r =? 0)%Z then [PNested (r_output r)] else [])))).
    { rewrite stdout_app. destruct (negb (t_hidden (tasks (r_task r)))), vb, (negb (r_retcode r =? 0)%Z); cbn;
        first [apply tidy_nested; apply tidy_nil | apply tidy_end; apply tidy_nil | apply tidy_nil]. }
    destruct (set_erase x q) as [|m q'] eqn:Eq.
    + injection E as _ <-. exact G.
    + destruct (look m) as [y|]; [|discriminate]. injection E as _ <-.
      rewrite stdout_app. apply tidy_app; [exact G|]. cbn. apply tidy_start. constructor.
  - injection E as _ <-. cbn. apply tidy_summary. constructor.
  - injection E as _ <-. constructor.
  - injection E as _ <-. constructor.
Qed.

Lemma watch_tidy look tasks tr : forall v0 v out, watch look tasks v0 tr = VOk v out -> tidy (on_stdout out).
Proof.
  induction tr as [|e tr IH]; intros v0 v out E; cbn [watch] in E.
  - injection E as _ <-. constructor.
  - destruct (visit look tasks v0 e) as [v1 o1|] eqn:E1; [|discriminate].
    destruct (watch look tasks v1 tr) as [v2 o2|] eqn:E2; [|discriminate]. injection E as _ <-.
    rewrite stdout_app. apply tidy_app; [exact (visit_tidy look tasks v0 e v1 o1 E1)|]. exact (IH v1 v2 o2 E2).
Qed.

(** * Everything printed *)
Definition fine (total : nat) (i : item) : Prop :=
  match i with
  | PStart er name => S (List.length (er_runs er)) <= er_total er /\ er_total er = total /\ printable name
  | PEnd er r => S (List.length (er_runs er)) <= er_total er /\ er_total er = total /\ printable (r_name r)
  | PNested o => printable_lines (concat_text (map ch_data o))
  | PExecEnd er => er_runs er <> [] /\ er_total er = total /\ 1 <= total
  | _ => note_printable i
  end.

Lemma at_cursor_cons p l : l <> [] -> at_cursor (p :: l) = at_cursor l.
Proof. destruct p as [t [] ], l; cbn; congruence. Qed.
Lemma start_row_len time er name : S (List.length (er_runs er)) <= er_total er ->
  List.length (start_row time er name) = front_len time er.
Proof. intros H. unfold start_row. rewrite front_length; [reflexivity|exact H|cbn; lia]. Qed.

Definition leaves (p : string * item) (rows : list (list cell)) : Prop := is_note (snd p) \/ rows = stays p.

Lemma show_items total len items : tidy items -> Forall (fine total) items ->
  forall l A old, map snd l = items -> Forall (fun p => printable (fst p) /\ String.length (fst p) = len) l ->
  List.length old <= len + 2 * String.length (dec_nat total) + 73 ->
  exists text rows, printed l = Some text /\ Forall2 leaves l rows /\
    show_text (fresh A old) text = fresh (A ++ concat rows) (match l with [] => old | _ => at_cursor l end).
Proof.
  assert (Step : forall p r l A text1 old1 (P : exists text rows, printed l = Some text /\ Forall2 leaves l rows /\
      show_text (fresh (A ++ r) old1) text = fresh ((A ++ r) ++ concat rows) (match l with [] => old1 | _ => at_cursor l end)) s0,
      at_cursor [p] = old1 -> leaves p r ->
      render (GRAY ++ fst p ++ RESET) (snd p) = Some text1 -> show_text s0 text1 = fresh (A ++ r) old1 ->
      exists text rows, printed (p :: l) = Some text /\ Forall2 leaves (p :: l) rows /\
        show_text s0 text = fresh (A ++ concat rows) (at_cursor (p :: l))).
  { intros p r l A text1 old1 (text & rows & Ep & Hr & Es) s0 Ho Hl Er E0. exists (text1 ++ text)%string, (r :: rows).
    destruct p as [time i].
    cbn [fst snd] in Er. cbn [printed]. rewrite Er, Ep. split; [reflexivity|]. split; [constructor; assumption|].
    rewrite show_app, E0, Es.
    cbn [concat]. rewrite app_assoc. destruct l as [|q l]; [f_equal; symmetry; exact Ho|].
    rewrite (at_cursor_cons (time, i) (q :: l)) by discriminate. reflexivity. }
  induction 1 as [|i items N T IH|er name items T IH|er r items T IH|er r o items T IH|er items T IH]; intros F l A old El Fl Ho.
  - destruct l; [|discriminate]. exists "", []. cbn. rewrite app_nil_r. repeat split. constructor.
  - destruct l as [|[time i'] l]; [discriminate|]. cbn [map snd] in El. injection El as -> El.
    inversion F as [|x y F0 F4]; subst. inversion Fl as [|x y G0 G3]; subst.
    assert (Hp : note_printable i) by (destruct i; cbn [is_note] in N; try contradiction; exact F0).
    destruct (show_note A old time i N Hp) as (text & rows & Et & Es).
    eapply (Step (time, i) rows l A text []); [|destruct i; cbn [is_note] in N; try contradiction; reflexivity|left; exact N|exact Et|exact Es].
    apply (IH F4); [reflexivity|exact G3|]. cbn. lia.
  - destruct l as [|[time i] l]; [discriminate|]. cbn [map snd] in El. injection El as -> El.
    inversion F as [|x y F0 F4]; subst. cbn [fine] in F0. destruct F0 as (F1 & F2 & F3).
    inversion Fl as [|x y G0 G3]; subst. cbn [fst] in G0. destruct G0 as (G1 & G2).
    destruct (show_start_item A old time er name F1 G1 F3 ltac:(unfold front_len; lia)) as (text & Et & Es).
    eapply (Step (time, PStart er name) [] l A text (start_row time er name)); [|reflexivity|right; reflexivity|exact Et|].
    + apply (IH F4); [reflexivity|exact G3|]. rewrite start_row_len by exact F1. unfold front_len. lia.
    + rewrite app_nil_r. exact Es.
  - destruct l as [|[time i] l]; [discriminate|]. cbn [map snd] in El. injection El as -> El.
    inversion F as [|x y F0 F4]; subst. cbn [fine] in F0. destruct F0 as (F1 & F2 & F3).
    inversion Fl as [|x y G0 G3]; subst. cbn [fst] in G0. destruct G0 as (G1 & G2).
    destruct (show_end_item A old time er r F1 G1 F3 ltac:(unfold front_len; lia)) as (text & Et & Es).
    eapply (Step (time, PEnd er r) _ l A text []); [|reflexivity|right; reflexivity|exact Et|exact Es].
    apply (IH F4); [reflexivity|exact G3|]. cbn. lia.
  - destruct l as [|[time i] l]; [discriminate|]. cbn [map snd] in El. injection El as -> El.
    destruct l as [|[time2 i] l]; [discriminate|]. cbn [map snd] in El. injection El as -> El.
    inversion F as [|x y F0 F4]; subst. cbn [fine] in F0. destruct F0 as (F1 & F2 & F3).
    inversion F4 as [|x y F5 F6]; subst. cbn [fine] in F5.
    inversion Fl as [|x y G0 G3]; subst. cbn [fst] in G0. destruct G0 as (G1 & G2).
    inversion G3 as [|x y G0 G6]; subst. 
    destruct (show_end_item A old time er r F1 G1 F3 ltac:(unfold front_len; lia)) as (text & Et & Es).
    eapply (Step (time, PEnd er r) _ ((time2, PNested o) :: l) A text []); [|reflexivity|right; reflexivity|exact Et|exact Es].
    destruct (show_nested (A ++ stays (time, PEnd er r)) time2 o F5) as (text2 & Et2 & Es2).
    eapply (Step (time2, PNested o) _ l _ text2 []); [|reflexivity|right; reflexivity|exact Et2|exact Es2].
    apply (IH F6); [reflexivity|exact G6|]. cbn. lia.
  - destruct l as [|[time i] l]; [discriminate|]. cbn [map snd] in El. injection El as -> El.
    inversion F as [|x y F0 F4]; subst. cbn [fine] in F0. destruct F0 as (F1 & F2 & F3).
    inversion Fl as [|x y G0 G3]; subst. cbn [fst] in G0. destruct G0 as (G1 & G2).
    destruct (show_summary A old time er F1 F3 G1 ltac:(unfold front_len; lia)) as (text & Et & Es).
    eapply (Step (time, PExecEnd er) _ l A text []); [|reflexivity|right; reflexivity|exact Et|exact Es].
    apply (IH F4); [reflexivity|exact G3|]. cbn. lia.
Qed.

Lemma screen_shows : forall c z s verbose v out l before,
  wf_dag (c_dag c) -> reachable c z s -> node_ids (c_dag c) <> [] ->
  (forall n, In n (node_ids (c_dag c)) -> printable (node_name (c_dag c) n)) ->
  (forall r, In r (records (trace s)) -> printable_lines (concat_text (map ch_data (r_output r)))) ->
  watch_exec c (print_visitor verbose) (trace s) = VOk v out -> Forall note_printable out ->
  map snd l = on_stdout out -> (forall time i, In (time, i) l -> printable time /\ String.length time = 6) ->
  exists text rows, printed l = Some text /\
    Forall2 (fun p r => is_note (snd p) \/ r = stays p) l rows /\
    show_text (fresh before []) text = fresh (before ++ concat rows) (at_cursor l).
Proof.
  intros c z s vb v out l before Hwf HR Hn Hname Hout E Hnote El Ht.
  pose proof (watch_tidy _ _ _ _ _ _ E) as T. rewrite Forall_forall in Hnote.
  assert (F : Forall (fine (List.length (node_ids (c_dag c)))) (on_stdout out)).
  { apply Forall_forall. intros i Hi. apply filter_In in Hi. destruct Hi as [Hi _].
    pose proof (items_ok c z s vb v out Hwf HR E i Hi) as W. pose proof (Hnote i Hi) as Np.
    destruct i; cbn [fine item_ok] in *; try exact Np.
    - destruct W as ((W1 & W2) & n & Hin & _ & <- & _). auto.
    - destruct W as ((W1 & W2) & x & Hx). split; [exact W1|]. split; [exact W2|].
      assert (Hr : In r (records (trace s))).
      { destruct (end_item c z s vb v out Hwf HR E er r Hi) as (_ & _ & H). apply nth_error_In in H. exact H. }
      destruct (record_facts c z s Hwf HR r Hr) as (K1 & _). rewrite <- recs_trace in Hr.
      destruct (rec_at c _ _ (r_log c z s Hwf HR) Hr) as (l1 & er' & x' & l2 & _ & He & _). cbn in He.
      destruct He as (_ & _ & _ & _ & _ & (_ & G2 & _) & _). rewrite G2. apply Hname. exact K1.
    - destruct (visitor_lines c z s vb Hwf HR) as (v' & out' & E' & _ & Eo & _). rewrite E in E'. injection E' as _ <-.
      assert (Hin : In output (outputs out)) by (apply in_flat_map; exists (PNested output); split; [exact Hi|left; reflexivity]).
      rewrite Eo in Hin. apply in_map_iff in Hin. destruct Hin as (r & <- & Hr). apply filter_In in Hr. apply Hout. apply Hr.
    - destruct (exec_end_item c z s vb v out Hwf HR E er Hn Hi) as (K1 & K2 & _). split; [exact K1|].
      split; [exact K2|]. destruct (node_ids (c_dag c)); [congruence|cbn; lia]. }
  destruct (show_items _ 6 _ T F l before [] El) as (text & rows & Ep & Hr & Es).
  - apply Forall_forall. intros [time i] Hi. exact (Ht time i Hi).
  - cbn. lia.
  - exists text, rows. split; [exact Ep|]. split; [exact Hr|]. rewrite Es. destruct l; reflexivity.
Qed.

(** Without messages. *)
Lemma quiet_screen : forall c z s v out l before,
  wf_dag (c_dag c) -> reachable c z s -> node_ids (c_dag c) <> [] ->
  (forall n, In n (node_ids (c_dag c)) -> printable (node_name (c_dag c) n)) ->
  (forall r, In r (records (trace s)) -> printable_lines (concat_text (map ch_data (r_output r)))) ->
  watch_exec c (print_visitor false) (trace s) = VOk v out ->
  map snd l = on_stdout out -> (forall time i, In (time, i) l -> printable time /\ String.length time = 6) ->
  exists text, printed l = Some text /\
    show_text (fresh before []) text = fresh (before ++ flat_map stays l) (at_cursor l).
Proof.
  intros c z s v out l before Hwf HR Hn Hname Hout E El Ht.
  destruct (visitor_lines c z s false Hwf HR) as (v' & out' & E' & _ & _ & _ & _ & Hq). rewrite E in E'. injection E' as _ <-.
  assert (Hno : forall i, In i out -> ~ is_note i) by (intros i Hi; specialize (Hq eq_refl i Hi); destruct i; cbn in *; tauto).
  destruct (screen_shows c z s false v out l before Hwf HR Hn Hname Hout E) as (text & rows & Ep & Hr & Es); [|exact El|exact Ht|].
  { apply Forall_forall. intros i Hi. specialize (Hno i Hi). destruct i; cbn in *; tauto. }
  exists text. split; [exact Ep|]. rewrite Es. f_equal. f_equal.
  assert (Hl : forall p, In p l -> ~ is_note (snd p)).
  { intros p Hp. apply Hno. assert (Hs : In (snd p) (on_stdout out)) by (rewrite <- El; apply in_map; exact Hp).
    apply filter_In in Hs. apply Hs. }
  clear - Hr Hl. induction Hr as [|p r l rows H _ IH]; [reflexivity|]. cbn [concat flat_map].
  destruct H as [H| ->]; [destruct (Hl p (or_introl eq_refl) H)|]. rewrite IH; [reflexivity|]. intros q Hq. apply Hl. right. exact Hq.
Qed.

(** After the execution the last thing printed is the summary. *)
Lemma ends_in_summary : forall c z s verbose v out er,
  wf_dag (c_dag c) -> reachable c z s -> result s = RRecord er ->
  watch_exec c (print_visitor verbose) (trace s) = VOk v out ->
  exists out', out = out' ++ [PExecEnd er].
Proof.
  intros c z s vb v out er Hwf HR Hres E.
  destruct (finished_log c z s Hwf HR er Hres) as (_ & _ & l & El & _ & _ & Hl).
  destruct (watch_log c Hwf vb _ Hl) as (q & out' & E' & _). exists out'.
  revert E. unfold trace. rewrite El. cbn [rev]. unfold watch_exec in *.
  rewrite watch_app, E'. cbn. intros E. injection E as _ <-. reflexivity.
Qed.

Lemma final_screen : forall c z s verbose v out l before er,
  wf_dag (c_dag c) -> reachable c z s -> node_ids (c_dag c) <> [] ->
  (forall n, In n (node_ids (c_dag c)) -> printable (node_name (c_dag c) n)) ->
  (forall r, In r (records (trace s)) -> printable_lines (concat_text (map ch_data (r_output r)))) ->
  watch_exec c (print_visitor verbose) (trace s) = VOk v out -> Forall note_printable out ->
  map snd l = on_stdout out -> (forall time i, In (time, i) l -> printable time /\ String.length time = 6) ->
  result s = RRecord er ->
  exists text time rows, printed l = Some text /\ In (time, PExecEnd er) l /\
    show_text (fresh before []) text = fresh (before ++ rows ++ [summary_row time er]) [].
Proof.
  intros c z s vb v out l before er Hwf HR Hn Hname Hout E Hnote El Ht Hres.
  destruct (screen_shows c z s vb v out l before Hwf HR Hn Hname Hout E Hnote El Ht) as (text & rows & Ep & Hr & Es).
  destruct (ends_in_summary c z s vb v out er Hwf HR Hres E) as (out' & ->).
  rewrite stdout_app in El. cbn [on_stdout filter on_stderr negb] in El.
  destruct (map_eq_app _ _ _ _ El) as (l1 & l2 & -> & _ & E2).
  destruct l2 as [|[time i] [|q l2]]; try discriminate. cbn [map snd] in E2. injection E2 as ->.
  apply Forall2_app_inv_l in Hr. destruct Hr as (r1 & r2 & _ & H2 & ->).
  inversion H2 as [|x y l' l'' Hy H3]; subst. inversion H3; subst. destruct Hy as [[]| ->].
  exists text, time, (concat r1). split; [exact Ep|]. split; [apply in_app_iff; right; left; reflexivity|].
  rewrite Es. rewrite concat_app. cbn [concat stays app].
  f_equal. clear. induction l1 as [|p l1 IH]; [reflexivity|]. cbn [app]. rewrite at_cursor_cons; [exact IH|]. destruct l1; discriminate.
Qed.
