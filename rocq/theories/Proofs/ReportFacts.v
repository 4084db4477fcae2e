(** Proofs about the JUnit and JSON reports and format_dag. *)
From Coq Require Import String Ascii Lia.
From Verif Require Import Model.Common Model.Records Model.Jobs Model.TaskSet Model.Dag Model.Sched Model.Exec
     Model.Text Model.Process Model.Format Model.Report
     Spec.Graph Spec.Trace Spec.Xml Spec.Report
     Proofs.Sets Proofs.TraceFacts Proofs.TextFacts Proofs.ProcessFacts Proofs.FormatFacts
     Proofs.ExecInv Proofs.LogFacts Proofs.ExecProps Proofs.ExecProps2.
Open Scope string_scope.
Open Scope nat_scope.
Open Scope list_scope.

(** * The reader *)
Lemma read_app s : forall r t, read_chars r (s ++ t) = read_chars (read_chars r s) t.
Proof. induction s as [|c s IH]; intros r t; cbn [append read_chars]; [reflexivity|apply IH]. Qed.

Lemma snoc_app v c s : (snoc v c ++ s)%string = (v ++ String c s)%string.
Proof. unfold snoc. rewrite str_app_assoc. reflexivity. Qed.

Lemma white_plain c : plain_char c -> white c = true -> c = " "%char.
Proof.
  intros (H & _) W. unfold white in W. rewrite <- (ascii_N_embedding c).
  rewrite !orb_true_iff, !N.eqb_eq in W. destruct W as [[[W|W]|W]|W]; [rewrite W; reflexivity|lia|lia|lia].
Qed.

Lemma read_val v : forall n a k acc o t, plain_text v ->
  read_chars (Reader (AttrVal n a k acc) o t) v = Reader (AttrVal n a k (acc ++ v)%string) o t.
Proof.
  induction v as [|c v IH]; intros n a k acc o t H; cbn [read_chars].
  - rewrite str_app_nil. reflexivity.
  - destruct H as [Hc H].
    assert (E : read_char (Reader (AttrVal n a k acc) o t) c = Reader (AttrVal n a k (snoc acc c)) o t).
    { unfold read_char. cbn [rd_mode rd_open rd_top].
      destruct (Ascii.eqb_spec c (ascii_of_nat 34)) as [E|E]; [destruct Hc as (_ & Hc & _); contradiction|].
      destruct (Ascii.eqb_spec c "<") as [E1|E1]; [destruct Hc as (_ & _ & Hc & _); contradiction|].
      destruct (Ascii.eqb_spec c "&") as [E2|E2]; [destruct Hc as (_ & _ & _ & Hc); contradiction|].
      destruct (white c) eqn:W; [rewrite (white_plain c Hc W); reflexivity|].
      destruct (N.ltb_spec (N_of_ascii c) 32) as [L|L]; [destruct Hc as (Hc & _); lia|reflexivity]. }
    rewrite E, IH by exact H. rewrite snoc_app. reflexivity.
Qed.

Lemma read_val0 v n a k o t : plain_text v ->
  read_chars (Reader (AttrVal n a k "") o t) v = Reader (AttrVal n a k v) o t.
Proof. apply read_val. Qed.

Lemma plain_app a b : plain_text a -> plain_text b -> plain_text (a ++ b).
Proof. induction a as [|c a IH]; cbn; tauto. Qed.

Lemma plain_digit k : (k < 10)%N -> plain_char (digit k).
Proof.
  intros H. destruct (digit_cases k H) as [E|[E|[E|[E|[E|[E|[E|[E|[E|E]]]]]]]]]; rewrite E;
    vm_compute; (split; [discriminate|]); repeat split; discriminate.
Qed.
Lemma plain_dec_aux fuel : forall n acc, plain_text acc -> plain_text (dec_aux fuel n acc).
Proof.
  induction fuel as [|f IH]; intros n acc H; [exact H|]. cbn [dec_aux].
  assert (H' : plain_text (String (digit (n mod 10)) acc))
    by (split; [apply plain_digit, N.mod_lt; discriminate|exact H]).
  destruct (n <? 10)%N; [exact H'|apply IH, H'].
Qed.
Lemma plain_dec_nat n : plain_text (dec_nat n).
Proof. apply plain_dec_aux. exact I. Qed.
Lemma plain_dec_Z z : plain_text (dec_Z z).
Proof.
  unfold dec_Z. destruct (z <? 0)%Z; try (apply plain_dec_aux; exact I).
  cbn [append plain_text]. split; [vm_compute; (split; [discriminate|]); repeat split; discriminate|apply plain_dec_aux; exact I].
Qed.

(** The return code is 0 exactly if the task did not fail. *)
Lemma failed_code c z s r : wf_dag (c_dag c) -> reachable c z s -> In r (records (trace s)) ->
  negb (r_retcode r =? 0)%Z = status_eqb (r_status r) FAIL.
Proof.
  intros Hwf HR Hr. destruct (record_facts c z s Hwf HR r Hr) as (_ & _ & F). cbn zeta in F.
  destruct (r_status r) eqn:Es; cbn [status_eqb].
  - destruct F as (_ & _ & _ & _ & o & _ & _ & _ & _ & F). rewrite ?Es in F.
    destruct (Z.eqb_spec (r_retcode r) 0) as [E|E]; [reflexivity|]. apply F in E. discriminate.
  - destruct F as (_ & _ & -> & _). reflexivity.
  - destruct F as (_ & _ & -> & _). reflexivity.
  - destruct F as (_ & _ & _ & _ & o & _ & _ & _ & _ & F). rewrite ?Es in F.
    destruct (Z.eqb_spec (r_retcode r) 0) as [E|E]; [|reflexivity]. exfalso. apply F; [reflexivity|exact E].
Qed.

(** * JUnit *)
Section Junit.
Variable fmt_secs : Z -> string.
Definition case_xml (r : run_record) : xml :=
  Elem "testcase" [("name", r_name r); ("time", fmt_secs (r_end r - r_start r)%Z)]
       (if (r_retcode r =? 0)%Z then [] else [Elem "failure" [("message", "task failed")] []]).

Lemma read_case r n a ch o t : plain_text (r_name r) -> plain_text (fmt_secs (r_end r - r_start r)%Z) ->
  read_chars (Reader Outside ((n, a, ch) :: o) t) (junit_case fmt_secs r) =
  Reader Outside ((n, a, ch ++ [case_xml r]) :: o) t.
Proof.
  intros H1 H2. unfold junit_case, case_xml. rewrite read_app. set (secs := fmt_secs (r_end r - r_start r)%Z) in *.
  assert (E : xml_open "testcase" [attr "name" (r_name r); attr "time" secs] =
     ("<testcase name=""" ++ r_name r ++ """ time=""" ++ secs ++ """>" ++ newline)%string).
  { unfold xml_open, attr. cbn [fold_left]. rewrite !str_app_assoc. reflexivity. }
  rewrite E, (read_app "<testcase name="""). change (read_chars (Reader Outside ((n, a, ch) :: o) t) "<testcase name=""") with
    (Reader (AttrVal "testcase" [] "name" "") ((n, a, ch) :: o) t).
  rewrite (read_app (r_name r)), read_val0 by exact H1.
  rewrite (read_app """ time=""").
  change (read_chars (Reader (AttrVal "testcase" [] "name" (r_name r)) ((n, a, ch) :: o) t) """ time=""") with
    (Reader (AttrVal "testcase" [("name", r_name r)] "time" "") ((n, a, ch) :: o) t).
  rewrite (read_app secs), read_val0 by exact H2.
  change (read_chars (Reader (AttrVal "testcase" [("name", r_name r)] "time" secs) ((n, a, ch) :: o) t)
     (""">" ++ newline)%string) with
    (Reader Outside (("testcase", [("name", r_name r); ("time", secs)], []) :: (n, a, ch) :: o) t).
  destruct (r_retcode r =? 0)%Z; reflexivity.
Qed.

Lemma read_cases rs : forall n a ch o t,
  Forall (fun r => plain_text (r_name r) /\ plain_text (fmt_secs (r_end r - r_start r)%Z)) rs ->
  forall pre, read_chars (Reader Outside ((n, a, ch) :: o) t)
    (fold_left (fun os r => os ++ junit_case fmt_secs r)%string rs pre) =
  let st := read_chars (Reader Outside ((n, a, ch) :: o) t) pre in
  read_chars st (fold_left (fun os r => os ++ junit_case fmt_secs r)%string rs "").
Proof.
  induction rs as [|r rs IH]; intros n a ch o t H pre; cbn [fold_left]; [reflexivity|].
  inversion H as [|? ? [H1 H2] H']; subst. rewrite IH by exact H'. cbn zeta. rewrite read_app. cbn [append].
  assert (G : forall l p, fold_left (fun os r0 => os ++ junit_case fmt_secs r0)%string l p =
     (p ++ fold_left (fun os r0 => os ++ junit_case fmt_secs r0)%string l "")%string).
  { induction l as [|x l IHl]; intros p; cbn [fold_left]; [rewrite str_app_nil; reflexivity|].
    rewrite IHl, (IHl ("" ++ junit_case fmt_secs x)%string). rewrite str_app_assoc. reflexivity. }
  rewrite (G rs (junit_case fmt_secs r)), !read_app. reflexivity.
Qed.

Lemma read_all_cases rs : forall n a ch o t,
  Forall (fun r => plain_text (r_name r) /\ plain_text (fmt_secs (r_end r - r_start r)%Z)) rs ->
  read_chars (Reader Outside ((n, a, ch) :: o) t)
    (fold_left (fun os r => os ++ junit_case fmt_secs r)%string rs "") =
  Reader Outside ((n, a, ch ++ map case_xml rs) :: o) t.
Proof.
  induction rs as [|r rs IH]; intros n a ch o t H; cbn [fold_left map].
  - rewrite app_nil_r. reflexivity.
  - inversion H as [|? ? [H1 H2] H']; subst. rewrite read_cases by exact H'. cbn zeta. cbn [append].
    rewrite read_case by assumption. rewrite IH by exact H'. rewrite <- app_assoc. reflexivity.
Qed.

Lemma junit_parses now suite er t : runtime_sum er = Some t ->
  plain_text suite -> plain_text now ->
  Forall (fun r => plain_text (r_name r) /\ plain_text (fmt_secs (r_end r - r_start r)%Z)) (er_runs er) ->
  exists text, generate_junit_xml fmt_secs now suite er = Some text /\
    parse_xml text = Some (Elem "testsuite"
      [("name", suite); ("tests", dec_nat (List.length (er_runs er)));
       ("failures", dec_nat (stat_get (er_stats er) FAIL)); ("time", (dec_Z t ++ "s")%string); ("timestamp", now)]
      (map case_xml (er_runs er))).
Proof.
  intros Ht Hs Hn Hr. unfold generate_junit_xml. rewrite Ht. cbn [obind]. eexists. split; [reflexivity|].
  unfold parse_xml.
  set (tests := dec_nat (List.length (er_runs er))). set (fails := dec_nat (stat_get (er_stats er) FAIL)).
  set (time := (dec_Z t ++ "s")%string). set (body := fold_left _ _ _).
  assert (E : xml_open "testsuite" [attr "name" suite; attr "tests" tests; attr "failures" fails;
                                    attr "time" time; attr "timestamp" now] =
     ("<testsuite name=""" ++ suite ++ """ tests=""" ++ tests ++ """ failures=""" ++ fails ++
      """ time=""" ++ time ++ """ timestamp=""" ++ now ++ """>" ++ newline)%string).
  { unfold xml_open, attr. cbn [fold_left]. rewrite !str_app_assoc. reflexivity. }
  rewrite E.
  rewrite (read_app "<?xml version=""1.0"" encoding=""UTF-8""?>"). change (read_chars (Reader Outside [] []) "<?xml version=""1.0"" encoding=""UTF-8""?>") with (Reader Outside [] []).
  rewrite (read_app newline). change (read_chars (Reader Outside [] []) newline) with (Reader Outside [] []).
  rewrite read_app, (read_app "<testsuite name="""). change (read_chars (Reader Outside [] []) "<testsuite name=""") with
    (Reader (AttrVal "testsuite" [] "name" "") [] []).
  rewrite (read_app suite), read_val0 by exact Hs.
  rewrite (read_app """ tests="""). change (read_chars (Reader (AttrVal "testsuite" [] "name" suite) [] []) """ tests=""") with
    (Reader (AttrVal "testsuite" [("name", suite)] "tests" "") [] []).
  rewrite (read_app tests), read_val0 by apply plain_dec_nat.
  rewrite (read_app """ failures="""). change (read_chars (Reader (AttrVal "testsuite" [("name", suite)] "tests" tests) [] []) """ failures=""") with
    (Reader (AttrVal "testsuite" [("name", suite); ("tests", tests)] "failures" "") [] []).
  rewrite (read_app fails), read_val0 by apply plain_dec_nat.
  rewrite (read_app """ time="""). change (read_chars (Reader (AttrVal "testsuite" [("name", suite); ("tests", tests)] "failures" fails) [] []) """ time=""") with
    (Reader (AttrVal "testsuite" [("name", suite); ("tests", tests); ("failures", fails)] "time" "") [] []).
  assert (Hp : plain_text time).
  { apply plain_app; [apply plain_dec_Z|]. vm_compute. split; [|exact I]. split; [discriminate|]. repeat split; discriminate. }
  rewrite (read_app time), read_val0 by exact Hp.
  rewrite (read_app """ timestamp="""). change (read_chars (Reader (AttrVal "testsuite" [("name", suite); ("tests", tests); ("failures", fails)] "time" time) [] []) """ timestamp=""") with
    (Reader (AttrVal "testsuite" [("name", suite); ("tests", tests); ("failures", fails); ("time", time)] "timestamp" "") [] []).
  rewrite (read_app now), read_val0 by exact Hn.
  change (read_chars (Reader (AttrVal "testsuite" [("name", suite); ("tests", tests); ("failures", fails); ("time", time)] "timestamp" now) [] []) (""">" ++ newline)%string) with
    (Reader Outside [("testsuite", [("name", suite); ("tests", tests); ("failures", fails); ("time", time); ("timestamp", now)], [])] []).
  rewrite read_app. unfold body. rewrite read_all_cases by exact Hr. reflexivity.
Qed.

(** A record returned by an execution. *)
Lemma junit_counts c z s er now suite : wf_dag (c_dag c) -> reachable c z s -> result s = RRecord er ->
  er_runs er <> [] ->
  plain_text suite -> plain_text now -> (forall d, plain_text (fmt_secs d)) ->
  (forall r, In r (er_runs er) -> plain_text (r_name r)) ->
  exists text attrs cases,
    generate_junit_xml fmt_secs now suite er = Some text /\
    parse_xml text = Some (Elem "testsuite" attrs cases) /\
    Forall2 (fun r x => is_case (r_name r) (status_eqb (r_status r) FAIL) x) (er_runs er) cases /\
    In ("name", suite) attrs /\
    In ("tests", dec_nat (List.length cases)) attrs /\
    In ("failures", dec_nat (List.length (filter has_failure cases))) attrs.
Proof.
  intros Hwf HR Hres Hne Hs Hn Hf Hr.
  destruct (runtime_sum_spec er Hne) as (k & _ & _ & Hk & _).
  assert (Hall : Forall (fun r => plain_text (r_name r) /\ plain_text (fmt_secs (r_end r - r_start r)%Z)) (er_runs er)).
  { apply Forall_forall. intros r Hr'. auto. }
  destruct (junit_parses now suite er k Hk Hs Hn Hall) as (text & E1 & E2).
  exists text. eexists _, _. split; [exact E1|]. split; [exact E2|].
  assert (Hret : forall r, In r (er_runs er) -> negb (r_retcode r =? 0)%Z = status_eqb (r_status r) FAIL).
  { intros r Hr'. rewrite (finished_runs c z s Hwf HR er Hres) in Hr'.
    exact (failed_code c z s r Hwf HR Hr'). }
  destruct (result_accounts c z s er Hwf HR Hres) as (_ & _ & Hst & _).
  split.
  { revert Hret. clear. induction (er_runs er) as [|r rs IH]; intros H; cbn [map]; constructor.
    - unfold is_case, case_xml. cbn [el_name el_attrs el_children]. split; [reflexivity|]. split; [cbn; auto|].
      rewrite <- (H r (or_introl eq_refl)). destruct (r_retcode r =? 0)%Z; cbn; eauto.
    - apply IH. intros r' Hr'. apply H. right. exact Hr'. }
  split; [cbn; auto|]. rewrite map_length. split; [cbn; auto|].
  assert (Hc : List.length (filter has_failure (map case_xml (er_runs er))) = stat_get (er_stats er) FAIL).
  { rewrite Hst. unfold count_status. revert Hret. clear.
    induction (er_runs er) as [|r rs IH]; intros H; [reflexivity|]. cbn [map filter].
    rewrite <- (H r (or_introl eq_refl)). unfold has_failure at 1, case_xml at 1. cbn [el_children].
    destruct (r_retcode r =? 0)%Z; cbn [existsb el_name negb]; [apply IH|cbn; f_equal; apply IH]; intros r' Hr'; apply H; right; exact Hr'. }
  rewrite Hc. cbn. auto.
Qed.
End Junit.

(** * JSON *)
Lemma json_run_members fmt_tp r :
  members (json_run fmt_tp r) = ["end"; "name"; "output"; "retcode"; "start"; "status"] /\
  member (json_run fmt_tp r) "name" (JStr (r_name r)) /\
  member (json_run fmt_tp r) "status" (JNum (status_num (r_status r))) /\
  member (json_run fmt_tp r) "retcode" (JNum (r_retcode r)) /\
  member (json_run fmt_tp r) "start" (JStr (fmt_tp (r_start r))) /\
  member (json_run fmt_tp r) "end" (JStr (fmt_tp (r_end r))) /\
  member (json_run fmt_tp r) "output" (JArr (map json_chunk (r_output r))).
Proof. cbn. split; [reflexivity|]. tauto. Qed.

Lemma json_chunk_members ch :
  members (json_chunk ch) = ["data"; "type"] /\
  member (json_chunk ch) "data" (JStr (ch_data ch)) /\
  member (json_chunk ch) "type" (JNum (match ch_type ch with ERROR => 0 | STANDARD => 1 end)).
Proof. cbn. split; [reflexivity|]. tauto. Qed.

Lemma json_exec_members fmt_tp er :
  members (json_exec fmt_tp er) = ["DEPF"; "FAIL"; "OK"; "SKIP"; "runs"; "total_count"] /\
  member (json_exec fmt_tp er) "OK" (JNum (Z.of_nat (stat_get (er_stats er) OK))) /\
  member (json_exec fmt_tp er) "SKIP" (JNum (Z.of_nat (stat_get (er_stats er) SKIP))) /\
  member (json_exec fmt_tp er) "DEPF" (JNum (Z.of_nat (stat_get (er_stats er) DEPF))) /\
  member (json_exec fmt_tp er) "FAIL" (JNum (Z.of_nat (stat_get (er_stats er) FAIL))) /\
  member (json_exec fmt_tp er) "total_count" (JNum (Z.of_nat (er_total er))) /\
  member (json_exec fmt_tp er) "runs" (JArr (map (json_run fmt_tp) (er_runs er))).
Proof. cbn. split; [reflexivity|]. tauto. Qed.

Lemma json_chunk_inj a b : json_chunk a = json_chunk b -> a = b.
Proof.
  destruct a as [ta da], b as [tb db]. cbn. intros E. injection E as E1 E2.
  destruct ta, tb; try discriminate; congruence.
Qed.
Lemma map_inj {A B} (f : A -> B) : (forall a b, f a = f b -> a = b) -> forall l l', map f l = map f l' -> l = l'.
Proof.
  intros H. induction l as [|a l IH]; intros [|b l'] E; try discriminate; [reflexivity|].
  cbn in E. injection E as E1 E2. f_equal; [apply H, E1|apply IH, E2].
Qed.

Lemma json_run_inj fmt_tp : (forall a b, fmt_tp a = fmt_tp b -> a = b) ->
  forall r r', json_run fmt_tp r = json_run fmt_tp r' -> contents r = contents r'.
Proof.
  intros Hf r r' E. cbn in E. injection E as E1 E2 E3 E4 E5 E6. unfold contents.
  apply map_inj in E3; [|exact json_chunk_inj]. apply Hf in E1. apply Hf in E5.
  assert (r_status r = r_status r') by (destruct (r_status r), (r_status r'); cbn in E6; congruence).
  congruence.
Qed.

Lemma json_exec_inj fmt_tp : (forall a b, fmt_tp a = fmt_tp b -> a = b) ->
  forall er er', json_exec fmt_tp er = json_exec fmt_tp er' ->
  map contents (er_runs er) = map contents (er_runs er') /\ er_total er = er_total er' /\
  forall k, stat_get (er_stats er) k = stat_get (er_stats er') k.
Proof.
  intros Hf er er' E. cbn in E. injection E as E1 E2 E3 E4 E5 E6. split; [|split].
  - revert E5. generalize (er_runs er'). induction (er_runs er) as [|r rs IH]; intros [|r' rs'] E; try discriminate; [reflexivity|].
    cbn [map] in E. injection E as Ea Eb. cbn [map]. f_equal; [eapply json_run_inj; [exact Hf|]; cbn; congruence|apply IH; assumption].
  - lia.
  - intros []; cbn; lia.
Qed.

(** * format_dag *)
Lemma join_concat l : forall s, fold_left (fun res n => res ++ ", " ++ n)%string l s =
  (s ++ match l with [] => "" | _ => ", " ++ String.concat ", " l end)%string.
Proof.
  induction l as [|a l IH]; intros s; cbn [fold_left]; [rewrite str_app_nil; reflexivity|].
  rewrite IH. rewrite str_app_assoc. f_equal. destruct l as [|b l].
  - cbn [String.concat]. rewrite str_app_nil. reflexivity.
  - cbn [String.concat]. rewrite !str_app_assoc. reflexivity.
Qed.

Lemma join_names_listed d es : join_names d es = listed (map (fun e => node_name d (e_tgt e)) es).
Proof.
  destruct es as [|e r]; [reflexivity|]. unfold join_names.
  assert (G : forall s, fold_left (fun res e => res ++ ", " ++ node_name d (e_tgt e))%string r s =
     fold_left (fun res n => res ++ ", " ++ n)%string (map (fun e => node_name d (e_tgt e)) r) s).
  { induction r as [|x r IH]; intros s; [reflexivity|]. cbn. apply IH. }
  rewrite G, join_concat. cbn [map listed]. destruct (map _ r) as [|b l].
  - cbn [String.concat]. rewrite !str_app_assoc. reflexivity.
  - cbn [String.concat]. rewrite !str_app_assoc. reflexivity.
Qed.

Lemma format_dag_listing d :
  format_dag d = after_listing (fun x => map (fun e => node_name d (e_tgt e)) (out_edges d (n_id x))) d.
Proof.
  unfold format_dag, after_listing. apply flat_map_ext. intros x. rewrite join_names_listed. reflexivity.
Qed.

Lemma dag_listing_all d : exists names, format_dag d = after_listing names d /\
  forall x nm, In nm (names x) <-> exists b k, In (Edge (n_id x) b k) (d_edges d) /\ node_name d b = nm.
Proof.
  eexists. split; [apply format_dag_listing|]. intros x nm. cbn beta. rewrite in_map_iff. unfold out_edges. split.
  - intros ([a b k] & E & H). apply filter_In in H. destruct H as [H Es]. cbn in Es, E. apply Nat.eqb_eq in Es. subst.
    exists b, k. auto.
  - intros (b & k & H & E). exists (Edge (n_id x) b k). split; [exact E|]. apply filter_In. cbn. rewrite Nat.eqb_refl. auto.
Qed.

Lemma dag_listing d : (forall a b k, In (Edge a b k) (d_edges d) -> runs_after d a b) ->
  exists names, format_dag d = after_listing names d /\
  forall x nm, In nm (names x) <-> exists b, runs_after d (n_id x) b /\ node_name d b = nm.
Proof.
  intros H. destruct (dag_listing_all d) as (names & E & Hn). exists names. split; [exact E|].
  intros x nm. rewrite Hn. split.
  - intros (b & k & Hb & Eb). exists b. split; [eapply H, Hb|exact Eb].
  - intros (b & Hb & Eb). exists b, AFTER. auto.
Qed.

Lemma print_dag_lines d :
  print_dag d = concat_text (map (fun l => l ++ String (ascii_of_nat 10) "")%string (format_dag d)).
Proof.
  unfold print_dag. generalize (format_dag d). intros l.
  assert (G : forall s, fold_left (fun os sv => os ++ sv ++ String lf "")%string l s =
     (s ++ concat_text (map (fun l => l ++ String (ascii_of_nat 10) "")%string l))%string).
  { induction l as [|a l IH]; intros s; cbn [fold_left map concat_text]; [rewrite str_app_nil; reflexivity|].
    rewrite IH. rewrite !str_app_assoc. reflexivity. }
  apply G.
Qed.

Lemma junit_names : forall fmt_secs now suite er t,
  runtime_sum er = Some t -> plain_text suite -> plain_text now ->
  Forall (fun r => plain_text (r_name r) /\ plain_text (fmt_secs (r_end r - r_start r)%Z)) (er_runs er) ->
  exists text attrs cases, generate_junit_xml fmt_secs now suite er = Some text /\
    parse_xml text = Some (Elem "testsuite" attrs cases) /\ In ("name", suite) attrs /\
    Forall2 (fun r x => In ("name", r_name r) (el_attrs x)) (er_runs er) cases.
Proof.
  intros fs now suite er t Ht Hs Hn Hr. destruct (junit_parses fs now suite er t Ht Hs Hn Hr) as (text & E1 & E2).
  exists text. do 2 eexists. split; [exact E1|]. split; [exact E2|]. split; [cbn; auto|].
  clear. induction (er_runs er) as [|r rs IH]; cbn [map]; constructor; [cbn; auto|exact IH].
Qed.

Lemma dec_Z_inj a b : dec_Z a = dec_Z b -> a = b.
Proof.
  assert (M : forall n m, (dec_N n <> "-" ++ dec_N m)%string).
  { intros n m G. destruct (dec_N_head n) as (d & r & E & Hd). rewrite E in G. injection G as G _.
    destruct (digit_cases d Hd) as [X|[X|[X|[X|[X|[X|[X|[X|[X|X]]]]]]]]]; rewrite X in G; discriminate. }
  unfold dec_Z. destruct (Z.ltb_spec a 0) as [Ha|Ha], (Z.ltb_spec b 0) as [Hb|Hb]; intros E.
  - injection E as E. apply dec_N_inj in E. lia.
  - symmetry in E. destruct (M _ _ E).
  - destruct (M _ _ E).
  - apply dec_N_inj in E. lia.
Qed.
