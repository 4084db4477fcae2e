(** Proofs about formatted text. *)
From Coq Require Import String Ascii Lia.
From Verif Require Import Model.Common Model.Records Model.TaskSet Model.Dag Model.Sched Model.Exec Model.Text
     Model.Process Model.Format Model.Report Model.Visitor Spec.Graph Spec.Report
     Proofs.TextFacts Proofs.ProcessFacts.
Open Scope string_scope.
Open Scope nat_scope.
Open Scope list_scope.

(** * runtime_sum *)
Lemma ceil_seconds_spec d : ((ceil_seconds d - 1) * second < d <= ceil_seconds d * second)%Z.
Proof.
  unfold ceil_seconds, second. pose proof (Z.quot_rem' d 1000000000) as H.
  assert (B : (-1000000000 < Z.rem d 1000000000 < 1000000000)%Z).
  { destruct (Z_le_gt_dec 0 d) as [Hd|Hd].
    - pose proof (Z.rem_bound_pos d 1000000000 ltac:(lia) ltac:(lia)). lia.
    - pose proof (Z.rem_bound_pos_neg d 1000000000 ltac:(lia) ltac:(lia)). lia. }
  cbn zeta.
  assert (Bs : (0 <= d -> 0 <= Z.rem d 1000000000)%Z) by (intros Hd; apply Z.rem_bound_pos; lia).
  assert (Bn : (d <= 0 -> Z.rem d 1000000000 <= 0)%Z) by (intros Hd; apply Z.rem_bound_pos_neg; lia).
  revert H B Bs Bn. generalize (Z.quot d 1000000000) as q. generalize (Z.rem d 1000000000) as r. intros r q H B Bs Bn.
  destruct (Z.ltb_spec (q * 1000000000) d); lia.
Qed.

Lemma runtime_sum_spec er : er_runs er <> [] ->
  exists k first last, runtime_sum er = Some k /\
    In first (er_runs er) /\ In last (er_runs er) /\
    (forall r, In r (er_runs er) -> r_start first <= r_start r /\ r_end r <= r_end last)%Z /\
    ((k - 1) * 1000000000 < r_end last - r_start first <= k * 1000000000)%Z.
Proof.
  intros H. unfold runtime_sum. destruct (er_runs er) as [|r rs]; [congruence|].
  destruct (min_element_spec r_start rs r) as [H1 H2]. destruct (max_element_spec r_end rs r) as [H3 H4].
  do 3 eexists. split; [reflexivity|]. split; [exact H1|]. split; [exact H3|].
  split; [auto|]. apply ceil_seconds_spec.
Qed.

(** * Strings *)
Lemma slen_app a b : String.length (a ++ b) = String.length a + String.length b.
Proof. induction a; cbn; congruence. Qed.
Lemma slen_repeat c n : String.length (repeat_char c n) = n.
Proof. induction n; cbn; congruence. Qed.
Lemma blanks_repeat n : blanks n = repeat_char " " n.
Proof. induction n; cbn; congruence. Qed.

(** * format_nested *)
Lemma nested_chars_app indent a b st :
  nested_chars indent (a ++ b) st = nested_chars indent b (nested_chars indent a st).
Proof. revert st. induction a as [|c a IH]; intros [[os p] lc]; cbn; [reflexivity|apply IH]. Qed.

Lemma nested_fold indent output : forall st,
  fold_left (fun st ch => nested_chars indent (ch_data ch) st) output st =
  nested_chars indent (concat_text (map ch_data output)) st.
Proof.
  induction output as [|ch r IH]; intros st; cbn [fold_left map concat_text]; [reflexivity|].
  rewrite IH, nested_chars_app. reflexivity.
Qed.

Definition out_lines (indent : string) (ls : list string) : string :=
  concat_text (map (fun l => indent ++ l ++ String lf "")%string ls).

(** [cur] is the line begun and already written (with the indent, unless empty). *)
Lemma nested_lines indent s : forall os cur lc,
  (cur = "" -> lc = lf) -> (cur <> "" -> lc <> lf) ->
  let st := nested_chars indent s
     ((os ++ match cur with "" => "" | _ => indent ++ cur end)%string,
      match cur with "" => indent | _ => "" end, lc) in
  (fst (fst st) ++ if Ascii.eqb (snd st) lf then "" else String lf "")%string =
  (os ++ out_lines indent (lines_from cur s))%string.
Proof.
  induction s as [|c s IH]; intros os cur lc H1 H2; cbn [nested_chars lines_from].
  - destruct cur as [|a cur].
    + rewrite H1 by reflexivity. cbn. rewrite !str_app_nil. reflexivity.
    + specialize (H2 ltac:(discriminate)). apply Ascii.eqb_neq in H2. cbn [fst snd]. rewrite H2.
      unfold out_lines. cbn [map concat_text]. rewrite !str_app_assoc, str_app_nil. reflexivity.
  - fold lf. destruct (Ascii.eqb_spec c lf) as [->|Hc].
    + unfold out_lines. cbn [map concat_text]. fold (out_lines indent (lines_from "" s)).
      specialize (IH (os ++ indent ++ cur ++ String lf "")%string "" lf ltac:(auto) ltac:(congruence)).
      cbn zeta in IH. rewrite str_app_nil in IH. rewrite !str_app_assoc in IH |- *. cbn [append] in *.
      destruct cur as [|a cur]; cbn [append] in *.
      * exact IH.
      * rewrite !str_app_assoc. cbn [append]. exact IH.
    + assert (Hne : (cur ++ String c "")%string <> "") by (destruct cur; discriminate).
      specialize (IH os (cur ++ String c "")%string c ltac:(congruence) ltac:(auto)). cbn zeta in IH.
      rewrite <- IH. f_equal. 
      all: destruct cur as [|a cur]; cbn [append]; rewrite ?str_app_assoc, ?str_app_nil; reflexivity.
Qed.

Lemma format_nested_spec indent output :
  format_nested indent output =
  concat_text (map (fun l => indent ++ l ++ String (ascii_of_nat 10) "")%string
                   (lines (concat_text (map ch_data output)))).
Proof.
  unfold format_nested. rewrite nested_fold.
  pose proof (nested_lines indent (concat_text (map ch_data output)) "" "" lf ltac:(auto) ltac:(congruence)) as H.
  cbn zeta in H. cbn [append] in H. unfold out_lines in H. fold (lines (concat_text (map ch_data output))) in H.
  etransitivity; [|exact H]. destruct (nested_chars _ _ _) as [[os p] lc]. cbn [fst snd].
  destruct (Ascii.eqb lc lf); [rewrite str_app_nil|]; reflexivity.
Qed.

(** * fmt_text *)
Fixpoint colour (s : string) : string :=
  match s with
  | EmptyString => EmptyString
  | String c r => if Ascii.eqb c "/" then GRAY_DELIM ++ colour r else String c (colour r)
  end.
Fixpoint slashes (s : string) : nat :=
  match s with EmptyString => 0 | String c r => (if Ascii.eqb c "/" then 1 else 0) + slashes r end.

Lemma find_char_skip c p : forall s, find_char c (p ++ s) (String.length p) =
  option_map (fun i => String.length p + i) (find_char c s 0).
Proof.
  induction p as [|a p IH]; intros s; cbn [append String.length find_char].
  - destruct (find_char c s 0); reflexivity.
  - rewrite IH. destruct (find_char c s 0); reflexivity.
Qed.

Lemma find_char_spec c : forall s,
  match find_char c s 0 with
  | None => ~ has_char c s
  | Some i => exists a b, s = (a ++ String c b)%string /\ String.length a = i /\ ~ has_char c a
  end.
Proof.
  induction s as [|x s IH]; cbn [find_char has_char]; [tauto|].
  destruct (Ascii.eqb_spec x c) as [->|H].
  - exists "", s. cbn. tauto.
  - destruct (find_char c s 0) as [i|]; cbn [option_map].
    + destruct IH as (a & b & -> & <- & Hn). exists (String x a), b. cbn. tauto.
    + tauto.
Qed.

Lemma colour_plain s : ~ has_char "/" s -> colour s = s.
Proof.
  induction s as [|c s IH]; cbn; [reflexivity|]. intros H. destruct (Ascii.eqb_spec c "/"); [tauto|].
  rewrite IH by tauto. reflexivity.
Qed.
Lemma colour_app a b : colour (a ++ b) = (colour a ++ colour b)%string.
Proof.
  induction a as [|c a IH]; [reflexivity|]. cbn [append colour].
  rewrite IH. destruct (Ascii.eqb c "/"); rewrite ?str_app_assoc; reflexivity.
Qed.
Lemma slashes_app a b : slashes (a ++ b) = slashes a + slashes b.
Proof. induction a as [|c a IH]; [reflexivity|]. cbn. rewrite IH. lia. Qed.
Lemma slashes_le s : slashes s <= String.length s.
Proof. induction s as [|c s IH]; cbn; [lia|]. destruct (Ascii.eqb c "/"); lia. Qed.

Lemma take_app a b : str_take (String.length a) (a ++ b) = a.
Proof. induction a; cbn; [destruct b; reflexivity|congruence]. Qed.
Lemma drop_app a b k : str_drop (String.length a + k) (a ++ b) = str_drop k b.
Proof. induction a; cbn; [reflexivity|assumption]. Qed.

Lemma gray_slashes_spec fuel : forall pre s, slashes s <= fuel ->
  gray_slashes fuel (pre ++ s) (String.length pre) = Some (pre ++ colour s)%string.
Proof.
  induction fuel as [|f IH]; intros pre s Hf; unfold gray_slashes; fold gray_slashes;
    rewrite find_char_skip; pose proof (find_char_spec "/" s) as H;
    destruct (find_char "/" s 0) as [i|]; cbn [option_map].
  - exfalso. destruct H as (a & b & -> & _). rewrite slashes_app in Hf. cbn in Hf. lia.
  - rewrite colour_plain by assumption. reflexivity.
  - destruct H as (a & b & -> & <- & Hn). unfold replace1.
    replace (pre ++ a ++ String "/" b)%string with ((pre ++ a) ++ String "/" b)%string by apply str_app_assoc.
    replace (S (String.length pre + String.length a)) with (String.length (pre ++ a) + 1) by (rewrite slen_app; lia).
    rewrite drop_app. rewrite <- slen_app, take_app. cbn [str_drop].
    rewrite slashes_app in Hf. cbn in Hf.
    replace ((pre ++ a) ++ GRAY_DELIM ++ b)%string with (((pre ++ a) ++ GRAY_DELIM) ++ b)%string by apply str_app_assoc.
    rewrite <- slen_app. rewrite IH by lia. f_equal.
    rewrite colour_app. cbn [colour]. rewrite Ascii.eqb_refl, (colour_plain a Hn), !str_app_assoc. reflexivity.
  - rewrite colour_plain by assumption. reflexivity.
Qed.

Lemma strip_app_delim s : strip false (GRAY_DELIM ++ s) = String "/" (strip false s).
Proof. reflexivity. Qed.
Lemma strip_colour s : ~ has_char (ascii_of_nat 27) s -> strip false (colour s) = s.
Proof.
  induction s as [|c s IH]; intros H; [reflexivity|]. cbn [has_char] in H. cbn [colour].
  destruct (Ascii.eqb_spec c "/") as [->|Hc].
  - rewrite strip_app_delim, IH by tauto. reflexivity.
  - cbn [strip]. destruct (Ascii.eqb_spec c (ascii_of_nat 27)); [exfalso; tauto|]. rewrite IH by tauto. reflexivity.
Qed.

Lemma take_pad n : forall s, pad_right n (str_take n s) = substring 0 n (s ++ blanks n).
Proof.
  assert (H0 : forall n s, substring 0 n s = str_take n s).
  { induction n0 as [|k IH]; intros [|c s]; cbn; [reflexivity|reflexivity|reflexivity|f_equal; apply IH]. }
  intros s. rewrite H0. unfold pad_right. rewrite blanks_repeat. revert s.
  assert (Hr : forall k m, k <= m -> str_take k (repeat_char " " m) = repeat_char " " k).
  { induction k as [|k IH]; intros [|m] Hm; cbn; try reflexivity; [lia|]. rewrite IH by lia. reflexivity. }
  assert (G : forall k m s, k <= m -> (str_take k s ++ repeat_char " " (k - String.length (str_take k s)))%string = str_take k (s ++ repeat_char " " m)).
  { induction k as [|k IH]; intros m [|c s] Hk; cbn [str_take append String.length]; try reflexivity.
    - rewrite Nat.sub_0_r. symmetry. exact (Hr (S k) m Hk).
    - cbn [Nat.sub]. f_equal. apply IH. lia. }
  intros s. apply G. lia.
Qed.

Lemma has_char_sub c n : forall s, has_char c (substring 0 n (s ++ blanks n)) -> c <> " "%char -> has_char c s.
Proof.
  assert (Hb : forall k m, c <> " "%char -> ~ has_char c (substring 0 k (blanks m))).
  { induction k as [|k IH]; intros [|m] Hc; cbn; try tauto. intros [E|E]; [congruence|]. revert E. apply IH. exact Hc. }
  assert (G : forall k m s, c <> " "%char -> has_char c (substring 0 k (s ++ blanks m)) -> has_char c s).
  { induction k as [|k IH]; intros m [|a s] Hc H.
    - destruct (Hb _ _ Hc H).
    - cbn in H. destruct H.
    - destruct (Hb _ _ Hc H).
    - cbn in H |- *. destruct H as [H|H]; [auto|right; eapply IH; eassumption]. }
  intros s H Hc. eapply G; eassumption.
Qed.

Lemma fmt_text_spec name : ~ has_char (ascii_of_nat 27) name ->
  exists t, fmt_text name = Some t /\ uncoloured t = substring 0 60 (name ++ blanks 60) /\
            String.length (uncoloured t) = 60.
Proof.
  intros H. unfold fmt_text. cbn zeta. set (str := pad_right 60 (str_take 60 name)).
  exists (colour str).
  pose proof (gray_slashes_spec (String.length str) "" str (slashes_le str)) as E. cbn [append String.length] in E.
  split; [exact E|].
  assert (Es : str = substring 0 60 (name ++ blanks 60)) by apply take_pad.
  unfold uncoloured. rewrite strip_colour.
  - split; [exact Es|]. unfold str, pad_right. rewrite slen_app, slen_repeat.
    assert (L : forall n s, String.length (str_take n s) <= n)
      by (induction n as [|n IHn]; intros [|c s]; cbn; try lia; specialize (IHn s); lia).
    specialize (L 60 name). lia.
  - rewrite Es. intros Hc. apply H. eapply has_char_sub; [exact Hc|discriminate].
Qed.

Lemma fmt_text_defined name : exists t, fmt_text name = Some t.
Proof.
  unfold fmt_text. cbn zeta. eexists.
  apply (gray_slashes_spec _ "" _ (slashes_le _)).
Qed.

(** * Counters *)
Lemma log10_aux_spec fuel : forall n, (0 < n)%N -> N.size_nat n <= fuel ->
  (10 ^ N.of_nat (log10_aux fuel n) <= n < 10 ^ N.of_nat (S (log10_aux fuel n)))%N.
Proof.
  induction fuel as [|f IH]; intros n Hn Hf.
  - destruct n as [|p]; [lia|]. cbn in Hf. destruct p; cbn in Hf; lia.
  - cbn [log10_aux]. destruct (N.ltb_spec n 10) as [H|H]; [cbn; lia|].
    pose proof (size_nat_div10 n H).
    assert (Hd : (0 < n / 10)%N) by (apply N.div_str_pos; lia).
    specialize (IH (n / 10)%N Hd ltac:(lia)).
    rewrite !Nat2N.inj_succ, !N.pow_succ_r' in *.
    pose proof (N.div_mod n 10 ltac:(lia)) as D. pose proof (N.mod_lt n 10 ltac:(lia)) as M. revert IH D M.
    generalize (10 ^ N.of_nat (log10_aux f (n / 10)))%N (n / 10)%N (n mod 10)%N. intros x y w IH D M. lia.
Qed.

Lemma log10_spec n : 0 < n -> 10 ^ log10 n <= n < 10 ^ S (log10 n).
Proof.
  intros H. pose proof (log10_aux_spec (N.size_nat (N.of_nat n)) (N.of_nat n) ltac:(lia) (le_n _)) as L.
  fold (log10 n) in L.
  assert (P : forall k, N.of_nat (10 ^ k) = (10 ^ N.of_nat k)%N) by (intros k; rewrite Nat2N.inj_pow; reflexivity).
  rewrite <- !P in L. lia.
Qed.

Lemma dec_aux_len fuel : forall n acc, N.size_nat n < fuel ->
  String.length (dec_aux fuel n acc) = S (log10_aux (N.size_nat n) n) + String.length acc.
Proof.
  assert (Hmono : forall f1 f2 n, N.size_nat n <= f1 -> N.size_nat n <= f2 -> log10_aux f1 n = log10_aux f2 n).
  { induction f1 as [|f1 IH]; intros f2 n H1 H2.
    - destruct n as [|[]]; cbn in H1; try lia. destruct f2; reflexivity.
    - destruct f2 as [|f2]; [destruct n as [|[]]; cbn in H2; try lia; reflexivity|].
      cbn [log10_aux]. destruct (N.ltb_spec n 10); [reflexivity|].
      pose proof (size_nat_div10 n H). f_equal. apply IH; lia. }
  induction fuel as [|f IH]; intros n acc Hf; [lia|]. cbn [dec_aux].
  destruct (N.ltb_spec n 10) as [H|H].
  - destruct (N.size_nat n) as [|k] eqn:E; cbn [log10_aux String.length].
    + reflexivity.
    + apply N.ltb_lt in H. rewrite H. reflexivity.
  - pose proof (size_nat_div10 n H). rewrite IH by lia. cbn [String.length].
    destruct (N.size_nat n) as [|k] eqn:E; [lia|].
    cbn [log10_aux]. apply N.ltb_ge in H. rewrite H. rewrite (Hmono k (N.size_nat (n / 10)) (n / 10)%N) by lia. lia.
Qed.

Lemma dec_nat_len n : 0 < n -> String.length (dec_nat n) = S (log10 n).
Proof. intros H. unfold dec_nat, dec_N, log10. rewrite dec_aux_len by lia. cbn. lia. Qed.

Lemma dec_nat_len_le a b : 0 < a -> a <= b -> String.length (dec_nat a) <= String.length (dec_nat b).
Proof.
  intros Ha Hab. rewrite !dec_nat_len by lia.
  pose proof (log10_spec a Ha). pose proof (log10_spec b ltac:(lia)).
  destruct (le_lt_dec (log10 a) (log10 b)) as [|L]; [lia|].
  assert (10 ^ S (log10 b) <= 10 ^ log10 a) by (apply Nat.pow_le_mono_r; lia). lia.
Qed.

(** Reading a run of digits with [value_from]. *)
Lemma value_digit d acc r : (d < 10)%N -> value_from acc (String (digit d) r) = value_from (10 * acc + N.to_nat d) r.
Proof.
  intros H. apply digit_cases in H.
  repeat destruct H as [->|H]; try reflexivity. subst. reflexivity.
Qed.

Lemma value_dec_aux fuel : forall n acc pre, N.size_nat n < fuel ->
  exists k, value_from pre (dec_aux fuel n acc) = value_from (pre * k + N.to_nat n) acc /\
            10 <= k.
Proof.
  induction fuel as [|f IH]; intros n acc pre Hf; [lia|].
  cbn [dec_aux]. assert (Hm : (n mod 10 < 10)%N) by (apply N.mod_lt; lia).
  destruct (N.ltb_spec n 10) as [Hn|Hn].
  - exists 10. split; [|lia]. rewrite value_digit by assumption.
    rewrite N.mod_small by assumption. f_equal. lia.
  - pose proof (size_nat_div10 n Hn).
    destruct (IH (n / 10)%N (String (digit (n mod 10)) acc) pre ltac:(lia)) as (k & E & He).
    exists (10 * k). split; [|lia].
    rewrite E, value_digit by assumption. f_equal.
    pose proof (N.div_mod n 10 ltac:(lia)) as D. apply (f_equal N.to_nat) in D.
    rewrite N2Nat.inj_add, N2Nat.inj_mul in D. change (N.to_nat 10) with 10 in D. lia.
Qed.

Lemma value_zeros k : forall s, value_from 0 (repeat_char "0" k ++ s) = value_from 0 s.
Proof. induction k as [|k IH]; intros s; [reflexivity|]. cbn [repeat_char append]. cbn. apply IH. Qed.

Lemma value_dec_nat n : value (dec_nat n) = Some n.
Proof.
  unfold dec_nat. destruct (dec_N_head (N.of_nat n)) as (d & r & E & Hd).
  unfold value. rewrite E. rewrite <- E. unfold dec_N.
  destruct (value_dec_aux (S (N.size_nat (N.of_nat n))) (N.of_nat n) "" 0 ltac:(lia)) as (k & -> & _).
  cbn. f_equal. lia.
Qed.

Lemma fmt_counter_spec count total : 1 <= count <= total ->
  exists t, fmt_counter count total = Some t /\ value t = Some count /\
            has_digits total (String.length t).
Proof.
  intros H. unfold fmt_counter, counter_width. destruct total as [|total']; [lia|].
  set (total := S total') in *. eexists. split; [reflexivity|]. split.
  - unfold pad_left. destruct (log10 total + 1 - String.length (dec_nat count)) as [|k]; cbn [repeat_char append].
    + apply value_dec_nat.
    + unfold value. change (String "0" (repeat_char "0" k ++ dec_nat count)) with (repeat_char "0" (S k) ++ dec_nat count)%string.
      rewrite value_zeros. pose proof (value_dec_nat count) as V. unfold value in V.
      destruct (dec_nat count) eqn:E; [discriminate|]. exact V.
  - unfold pad_left. rewrite slen_app, slen_repeat.
    pose proof (dec_nat_len_le count total ltac:(lia) ltac:(lia)) as L. rewrite (dec_nat_len total) in L by lia.
    replace (log10 total + 1 - String.length (dec_nat count) + String.length (dec_nat count)) with (S (log10 total)) by lia.
    pose proof (log10_spec total ltac:(lia)). split; [lia|]. replace (S (log10 total) - 1) with (log10 total) by lia. exact H0.
Qed.

Lemma fmt_counter_value count total : 0 < total ->
  exists t, fmt_counter count total = Some t /\ value t = Some count.
Proof.
  intros H. unfold fmt_counter, counter_width. destruct total as [|total']; [lia|].
  set (total := S total') in *. eexists. split; [reflexivity|].
  unfold pad_left. destruct (log10 total + 1 - String.length (dec_nat count)) as [|k]; cbn [repeat_char append].
  + apply value_dec_nat.
  + unfold value. change (String "0" (repeat_char "0" k ++ dec_nat count)) with (repeat_char "0" (S k) ++ dec_nat count)%string.
    rewrite value_zeros. pose proof (value_dec_nat count) as V. unfold value in V.
    destruct (dec_nat count) eqn:E; [discriminate|]. exact V.
Qed.
