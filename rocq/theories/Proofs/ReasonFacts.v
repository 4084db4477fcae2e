(** Proofs about the reasons of process checks, processes built step by step, and results
    filled piece by piece. *)
From Coq Require Import String Ascii Lia.
From Verif Require Import Model.Common Model.Records Model.Jobs Model.TaskSet Model.Dag Model.Sched Model.Exec
     Model.Text Model.Process Model.JobTypes Model.ExecSet
     Spec.Graph Spec.Trace Spec.Tasks Spec.Files Spec.Reasons
     Proofs.TextFacts Proofs.ProcessFacts Proofs.ExecInv Proofs.LogFacts Proofs.Asked Proofs.SetExec Proofs.ExecProps Proofs.ExecProps2 Proofs.ExecProps3 Proofs.ExecProps4.
Open Scope string_scope.
Open Scope list_scope.

Lemma check_reason : forall f p, exists r, reason_holds f p r /\
  forall fmt, iv_log (is_invalidated fmt f p) = reason_log fmt r /\
    (iv_invalidated (is_invalidated fmt f p) = true <-> reason_answer f p r).
Proof.
  intros f p.
  assert (Tail : ~ last_run_bad f p -> exists r, reason_holds f p r /\
     forall fmt, iv_log (is_invalidated fmt f p) = reason_log fmt r /\
       (iv_invalidated (is_invalidated fmt f p) = true <-> reason_answer f p r)).
  { intros Hl. unfold is_invalidated.
    assert (Et : forall (b : inval_result), match p_retcode p with
                 | None => b
                 | Some rf => match f rf with
                     | Some x => let last := read_retcode x in
                       if (last =? 0)%Z then b else InvalResult true ("last retcode is nonzero: " ++ dec_Z last ++ " in " ++ rf)
                     | None => InvalResult true ("no retcode file" ++ rf) end end = b).
    { intros b. destruct (p_retcode p) as [rf|] eqn:Er; [|reflexivity].
      destruct (f rf) as [x|] eqn:Ex; [|exfalso; apply Hl; exists rf; auto]. cbn zeta.
      destruct (Z.eqb_spec (read_retcode x) 0) as [E|E]; [reflexivity|]. exfalso. apply Hl. exists rf. eauto. }
    cbn zeta in *. setoid_rewrite Et. clear Et.
    destruct (p_output p) as [|o os] eqn:Eo.
    { exists NoOutput. split; [split; assumption|]. intros fmt. cbn. tauto. }
    destruct (p_input p) as [|i is] eqn:Ei.
    { exists OutputExistence. split; [cbn; rewrite Eo, Ei; repeat split; [exact Hl|discriminate]|].
      intros fmt. split; [reflexivity|]. cbn [iv_invalidated reason_answer]. rewrite Eo, forallb_forall.
      unfold fs_exists. split; intros H x Hx; specialize (H x Hx); destruct (f x); congruence. }
    set (old := min_element (path_to_write_time f) o os).
    set (new := max_element (path_to_write_time f) i is).
    destruct (min_element_spec (path_to_write_time f) os o) as [Ho1 Ho2]. fold old in Ho1, Ho2.
    destruct (max_element_spec (path_to_write_time f) is i) as [Hi1 Hi2]. fold new in Hi1, Hi2.
    unfold fs_exists. destruct (f old) as [xo|] eqn:Exo; cbn [negb].
    2:{ exists (MissingOutput old). split; [cbn [reason_holds]; rewrite Eo, Ei; repeat split; [exact Hl|discriminate|exact Ho1|exact Exo]|].
        intros fmt. cbn. tauto. }
    exists (Compared old (path_to_write_time f old) new (path_to_write_time f new)). split.
    - cbn [reason_holds]. rewrite Eo, Ei. repeat split; [exact Hl|exact Ho1|exact Hi1| |exact Ho2|exact Hi2].
      exists xo. split; [exact Exo|]. unfold path_to_write_time. rewrite Exo. reflexivity.
    - intros fmt. split; [reflexivity|]. cbn [iv_invalidated reason_answer]. apply Z.leb_le. }
  destruct (p_retcode p) as [rf|] eqn:Er.
  2:{ apply Tail. intros (rf & E & _). congruence. }
  destruct (f rf) as [x|] eqn:Ex.
  2:{ exists (NoRetcodeFile rf). split; [cbn; auto|]. intros fmt. unfold is_invalidated. rewrite Er, Ex. cbn. tauto. }
  destruct (Z.eqb_spec (read_retcode x) 0) as [E|E].
  - apply Tail. intros (rf' & E1 & [E2|(x' & E2 & E3)]); [congruence|].
    rewrite Er in E1. inversion E1. subst rf'. rewrite Ex in E2. inversion E2. subst. auto.
  - exists (LastFailed (read_retcode x) rf). split; [cbn; eauto 6|]. intros fmt. unfold is_invalidated. rewrite Er, Ex.
    cbn zeta. destruct (Z.eqb_spec (read_retcode x) 0) as [E'|_]; [contradiction|]. cbn. tauto.
Qed.

(** The beginnings of the texts tell the kinds apart. *)
Lemma reason_kinds fmt r1 r2 : reason_log fmt r1 = reason_log fmt r2 ->
  match r1, r2 with
  | NoRetcodeFile a, NoRetcodeFile b => a = b
  | LastFailed _ _, LastFailed _ _ => True
  | NoOutput, NoOutput | OutputExistence, OutputExistence => True
  | MissingOutput a, MissingOutput b => a = b
  | Compared _ _ _ _, Compared _ _ _ _ => True
  | _, _ => False
  end.
Proof.
  destruct r1, r2; cbn; intros H; try discriminate; auto; injection H; auto.
Qed.

Lemma reason_read fmt f p r : iv_log (is_invalidated fmt f p) = reason_log fmt r ->
  match r with LastFailed _ _ | Compared _ _ _ _ => True | _ => reason_holds f p r end.
Proof.
  intros E. destruct (check_reason f p) as (r' & H & A). destruct (A fmt) as [A1 _]. rewrite A1 in E.
  apply reason_kinds in E. destruct r', r; try contradiction; try exact I; try subst; exact H.
Qed.

(** In an execution of processes the visitor is told such a reason for every task. *)
Lemma shown_reason : forall fmt f job st ts filt addr c z s n v t,
  execution_of st ts filt (process_checks fmt f job) addr c -> reachable c z s ->
  In (EInval n v t) (trace s) ->
  exists u r, selected st ts filt u /\ n = addr u /\ reason_holds f (job u) r /\ t = reason_log fmt r /\
    (v = INVALID <-> reason_answer f (job u) r).
Proof.
  intros fmt f job st ts filt addr c z s n v t HX HR H.
  destruct (exec_facts st ts filt (process_checks fmt f job) addr c HX) as (Hwf & _ & _ & _ & Hn & _ & _ & _ & Hiv).
  apply in_split in H. destruct H as (a & b & E).
  destruct (inval_reported c z s a n v t b Hwf HR E) as (Hid & _ & _ & b0 & Ha & Hv).
  destruct (Hn n Hid) as (u & Hu & ->). rewrite (Hiv u Hu) in Ha. unfold process_checks in Ha. inversion Ha; subst.
  destruct (check_reason f (job u)) as (r & Hr & Hl). exists u, r. destruct (Hl fmt) as [H1 H2].
  repeat split; auto.
  - intros Hi. apply H2. destruct (iv_invalidated (is_invalidated fmt f (job u))); [reflexivity|discriminate].
  - intros Hi. apply H2 in Hi. rewrite Hi. reflexivity.
Qed.

(** * Processes built step by step *)
Lemma extend_spec ms : forall q,
  fold_left extend ms q =
  Process (p_cmd q) (p_input q ++ more_inputs ms) (p_output q ++ more_outputs ms)
          (match last_retcode_file ms with Some p => Some p | None => p_retcode q end).
Proof.
  induction ms as [|m ms IH]; intros [cm i o rc]; cbn [fold_left more_inputs more_outputs flat_map last_retcode_file].
  - rewrite !app_nil_r. reflexivity.
  - rewrite IH. destruct m; cbn; rewrite <- ?app_assoc; destruct (last_retcode_file ms); reflexivity.
Qed.

Lemma chain_spec args ms :
  let q := fold_left extend ms (derive args) in
  p_cmd q = map arg_text args /\
  p_input q = flat_map arg_input args ++ more_inputs ms /\
  p_output q = flat_map arg_output args ++ more_outputs ms /\
  p_retcode q = last_retcode_file ms.
Proof.
  cbn zeta. rewrite extend_spec. destruct (derive_spec args) as (E1 & E2 & E3 & E4). cbn.
  rewrite E1, E2, E3, E4. repeat split. destruct (last_retcode_file ms); reflexivity.
Qed.

(** * Results *)
Lemma written ws : forall r, fold_left write ws r = RunResult (rr_retcode r) (rr_output r ++ map captured ws) (rr_log r).
Proof.
  induction ws as [|w ws IH]; intros [rc o l]; cbn [fold_left map].
  - cbn. rewrite app_nil_r. reflexivity.
  - rewrite IH. destruct w as [[] d]; cbn; rewrite <- app_assoc; reflexivity.
Qed.

(** * From jobs to records *)
Lemma job_recorded c z s n o r : wf_dag (c_dag c) -> reachable c z s ->
  In (EEnd n o) (trace s) -> In r (records (trace s)) -> r_node r = n ->
  r_retcode r = job_code o /\ r_output r = job_output o /\
  (r_status r = OK \/ r_status r = FAIL) /\ (r_status r = OK <-> job_code o = 0%Z).
Proof.
  intros Hwf HR Ho Hr En.
  pose proof (record_facts c z s Hwf HR r Hr) as [_ [_ F]]. cbn zeta in F. rewrite En in F.
  assert (Hl : In (ELaunch n) (trace s)).
  { pose proof (k_fut _ _ _ _ (i_core _ _ (r_inv c z s Hwf HR)) n) as G. apply in_rev in Ho.
    apply -> in_rev. destruct (s_fut s n); cbn in G; try apply G.
    destruct G as [_ [_ G]]. destruct (G _ Ho). }
  assert (Hu : forall o', In (EEnd n o') (trace s) -> o' = o).
  { intros o' O'. pose proof (k_fut _ _ _ _ (i_core _ _ (r_inv c z s Hwf HR)) n) as G.
    apply in_rev in Ho, O'. destruct (s_fut s n) eqn:Ef; cbn in G.
    - destruct G as [_ [_ G]]. destruct (G _ Ho).
    - destruct G as [_ [_ G]]. destruct (G _ Ho).
    - destruct G as [_ [_ G]]. destruct (G _ Ho).
    - destruct G as [_ [_ G]]. destruct (G _ Ho).
    - destruct G as [_ [_ [_ G]]]. rewrite (G _ Ho), (G _ O'). reflexivity. }
  destruct (r_status r) eqn:Es.
  - destruct F as (_ & _ & _ & _ & o' & Ho' & E1 & E2 & _ & E3). apply Hu in Ho'. subst o'.
    rewrite lambda_code in E1. rewrite lambda_output in E2.
    split; [exact E1|]. split; [exact E2|]. split; [auto|]. split; [|auto]. intros _.
    rewrite <- E1. destruct (Z.eq_dec (r_retcode r) 0) as [|N]; [assumption|].
    apply E3 in N. congruence.
  - destruct F as (_ & F & _). contradiction.
  - destruct F as (_ & F & _). contradiction.
  - destruct F as (_ & _ & _ & _ & o' & Ho' & E1 & E2 & _ & E3). apply Hu in Ho'. subst o'.
    rewrite lambda_code in E1. rewrite lambda_output in E2.
    split; [exact E1|]. split; [exact E2|]. split; [auto|]. split; [discriminate|].
    intros N. exfalso. apply (proj1 E3 eq_refl). congruence.
Qed.

Lemma callable_recorded c z s n r indet rr f1 e f0 : wf_dag (c_dag c) -> reachable c z s ->
  In (EEnd n (fst (job_run indet (CRet rr) f1 e f0 JobCallable))) (trace s) ->
  In r (records (trace s)) -> r_node r = n ->
  r_retcode r = rr_retcode rr /\ r_output r = rr_output rr /\
  (r_status r = OK <-> rr_retcode rr = 0%Z) /\ (r_status r = FAIL <-> rr_retcode rr <> 0%Z).
Proof.
  intros Hwf HR Ho Hr En. cbn [job_run traits_run fst] in Ho.
  destruct (job_recorded c z s n _ r Hwf HR Ho Hr En) as (E1 & E2 & E3 & E4). cbn in E1, E2, E4.
  repeat split; auto; try (apply E4).
  - intros Hf Hz. apply E4 in Hz. congruence.
  - intros Hz. destruct E3 as [E3|E3]; [apply E4 in E3; contradiction|exact E3].
Qed.

Lemma process_recorded c z s n r indet call f1 p e f0 : wf_dag (c_dag c) -> reachable c z s ->
  In (EEnd n (fst (job_run indet call f1 e f0 (JobProcess p)))) (trace s) ->
  In r (records (trace s)) -> r_node r = n ->
  let removed := p_retcode p = None \/ sb_remove_throws e = None in
  (r_status r = OK \/ r_status r = FAIL) /\
  (r_status r = OK <-> completed e 0 /\ removed) /\
  (removed -> completed e 0 -> r_output r = map captured (sb_chunks e)) /\
  (removed -> forall code, code <> 0%Z -> completed e code ->
     r_retcode r = code /\
     r_output r = Chunk STANDARD ("cmd: " ++ format_cmd (p_cmd p))%string :: map captured (sb_chunks e)).
Proof.
  intros Hwf HR Ho Hr En rm. cbn [job_run] in Ho.
  destruct (process_run p e f0) as [o f2] eqn:Ep. cbn [fst] in Ho.
  destruct (job_recorded c z s n o r Hwf HR Ho Hr En) as (E1 & E2 & E3 & E4).
  split; [exact E3|].
  destruct (process_returns p e f0) as [(rr & f3 & E)|(rf & w & code & A & B & C & E)]; rewrite Ep in E; inversion E; subst o f2.
  - cbn in E1, E2, E4. destruct (process_result p e f0 rr f3 Ep) as (R1 & _ & R2 & R3 & _).
    split; [|split].
    + rewrite E4, R1. split; [|tauto]. intros Hc. split; [exact Hc|]. unfold rm.
      destruct (p_retcode p) as [rf|] eqn:Er; [|auto]. destruct (sb_remove_throws e) as [w|] eqn:Et; [|auto]. exfalso.
      rewrite (run_completed p e f0 0 Hc) in Ep. cbn zeta in Ep. rewrite Er, Et in Ep. discriminate Ep.
    + intros _ Hc. rewrite E2. apply R2. exact Hc.
    + intros _ k Hk Hc. rewrite E1, E2. apply R3; assumption.
  - assert (Nr : ~ rm) by (unfold rm; rewrite A, B; intros [|]; discriminate).
    split; [|split; [tauto|]].
    + rewrite E4. cbn. split; [discriminate|tauto].
    + intros H. contradiction.
Qed.

Lemma read_retcode_int x : is_int (read_retcode x).
Proof.
  unfold read_retcode, is_int. destruct (f_readable x); [|lia].
  assert (C : forall v, (-2147483648 <= Z.max int_min (Z.min int_max v) <= 2147483647)%Z)
    by (intros v; unfold int_min, int_max; lia).
  unfold read_int. destruct (skip_space (f_content x)) as [|a l]; [lia|].
  destruct (Ascii.eqb a "-"); [apply C|]. destruct (Ascii.eqb a "+"); apply C.
Qed.

(** * Reading an int *)
Lemma n_ascii a : N_of_ascii a = N.of_nat (nat_of_ascii a).
Proof. unfold nat_of_ascii. lia. Qed.

Lemma white_space a : white a <-> is_space a = true.
Proof.
  unfold white, is_space. rewrite n_ascii. cbn [In].
  rewrite Bool.orb_true_iff, Bool.andb_true_iff, N.eqb_eq, !N.leb_le. lia.
Qed.

Lemma digit_val_none a : ~ is_digit a -> digit_val a = None.
Proof.
  unfold is_digit, digit_val. intros H. rewrite n_ascii.
  destruct (N.leb_spec 48 (N.of_nat (nat_of_ascii a))); cbn [andb]; [|reflexivity].
  destruct (N.leb_spec (N.of_nat (nat_of_ascii a)) 57); [exfalso; apply H; lia|reflexivity].
Qed.

Lemma skip_white ws s : all_white ws -> skip_space (ws ++ s) = skip_space s.
Proof.
  induction ws as [|a ws IH]; intros H; [reflexivity|]. destruct H as [H1 H2].
  cbn [append skip_space]. apply white_space in H1. rewrite H1. auto.
Qed.

Lemma dec_aux_app fuel : forall n acc rest, (dec_aux fuel n acc ++ rest = dec_aux fuel n (acc ++ rest))%string.
Proof.
  induction fuel as [|f IH]; intros n acc rest; [reflexivity|]. cbn [dec_aux].
  destruct (n <? 10)%N; [reflexivity|]. rewrite IH. reflexivity.
Qed.

Lemma read_dec_rest n rest : ~ starts_with is_digit rest -> read_digits (dec_N n ++ rest) 0 false = (n, true).
Proof.
  intros H. unfold dec_N. rewrite dec_aux_app. cbn [append].
  destruct (read_dec_aux (S (N.size_nat n)) n rest 0 false ltac:(lia)) as (k & E & _). rewrite E. cbn [N.mul N.add].
  destruct rest as [|a r]; [reflexivity|]. cbn [read_digits]. rewrite digit_val_none by exact H. reflexivity.
Qed.

Lemma clamp_nearest v : nearest_int v (Z.max int_min (Z.min int_max v)).
Proof. unfold nearest_int, is_int, int_min, int_max. lia. Qed.

Lemma read_number t ws g n rest : all_white ws -> ~ starts_with is_digit rest ->
  nearest_int (match g with Minus => - Z.of_N n | _ => Z.of_N n end)
    (read_retcode (File t (ws ++ sign_text g ++ dec_N n ++ rest) true)).
Proof.
  intros Hw Hr. unfold read_retcode. cbn [f_readable f_content]. unfold read_int. rewrite skip_white by exact Hw.
  destruct g; cbn [sign_text append].
  - destruct (dec_N_head n) as (d & r & E & Hd). pose proof (read_dec_rest n rest Hr) as R. rewrite E in *. cbn [append] in *.
    destruct (digit_plain d Hd) as (H1 & H2 & H3). cbn [skip_space]. rewrite H1, H2, H3, R. apply clamp_nearest.
  - change (skip_space (String "+" (dec_N n ++ rest))) with (String "+" (dec_N n ++ rest))%string. cbn [Ascii.eqb Bool.eqb].
    rewrite read_dec_rest by exact Hr. apply clamp_nearest.
  - change (skip_space (String "-" (dec_N n ++ rest))) with (String "-" (dec_N n ++ rest))%string. cbn [Ascii.eqb Bool.eqb].
    rewrite read_dec_rest by exact Hr. apply clamp_nearest.
Qed.

Lemma read_nothing t ws g rest : all_white ws -> ~ starts_with is_digit rest ->
  (g = Plain -> ~ starts_with (fun a => white a \/ a = "+"%char \/ a = "-"%char) rest) ->
  read_retcode (File t (ws ++ sign_text g ++ rest) true) = 0%Z.
Proof.
  intros Hw Hr Hg. unfold read_retcode. cbn [f_readable f_content]. unfold read_int. rewrite skip_white by exact Hw.
  assert (R : fst (read_digits rest 0 false) = 0%N).
  { destruct rest as [|a r]; [reflexivity|]. cbn [read_digits]. rewrite digit_val_none by exact Hr. reflexivity. }
  destruct g; cbn [sign_text append].
  - destruct rest as [|a r]; [reflexivity|]. specialize (Hg eq_refl). cbn [starts_with] in Hg.
    assert (S : is_space a = false).
    { destruct (is_space a) eqn:E; [|reflexivity]. apply white_space in E. tauto. }
    cbn [skip_space]. rewrite S. destruct (Ascii.eqb_spec a "-"); [tauto|]. destruct (Ascii.eqb_spec a "+"); [tauto|].
    rewrite R. reflexivity.
  - change (skip_space (String "+" rest)) with (String "+" rest). cbn [Ascii.eqb Bool.eqb]. rewrite R. reflexivity.
  - change (skip_space (String "-" rest)) with (String "-" rest). cbn [Ascii.eqb Bool.eqb]. rewrite R. reflexivity.
Qed.

Lemma unreadable_code : forall fmt f p rf t x, p_retcode p = Some rf -> f rf = Some (File t x false) ->
  is_invalidated fmt f p = is_invalidated fmt f (Process (p_cmd p) (p_input p) (p_output p) None).
Proof.
  intros fmt f p rf t x Hp Hf. unfold is_invalidated. rewrite Hp, Hf. reflexivity.
Qed.
