(** Proofs about process jobs. *)
From Coq Require Import String Ascii Lia Relations.
From Verif Require Import Model.Common Model.Records Model.Jobs Model.TaskSet Model.Sched Model.Exec
     Model.Text Model.Process Spec.Trace Spec.Tasks Spec.Files Proofs.TextFacts Proofs.SetExec.
Open Scope nat_scope.
Open Scope list_scope.

Lemma min_element_spec {A} (proj : A -> Z) : forall l x,
  In (min_element proj x l) (x :: l) /\
  forall y, In y (x :: l) -> (proj (min_element proj x l) <= proj y)%Z.
Proof.
  induction l as [|y r IH]; intros x; cbn [min_element].
  - cbn. split; [auto|]. intros y [->|[]]. lia.
  - destruct (Z.ltb_spec (proj y) (proj x)) as [H|H].
    + destruct (IH y) as [H1 H2]. split; [right; exact H1|].
      intros w [->|Hw]; [specialize (H2 y (or_introl eq_refl)); lia|apply H2; exact Hw].
    + destruct (IH x) as [H1 H2]. split; [cbn in *; tauto|].
      intros w [->|[->|Hw]].
      * apply H2; cbn; auto.
      * specialize (H2 x (or_introl eq_refl)); lia.
      * apply H2; cbn; auto.
Qed.

Lemma max_element_spec {A} (proj : A -> Z) : forall l x,
  In (max_element proj x l) (x :: l) /\
  forall y, In y (x :: l) -> (proj y <= proj (max_element proj x l))%Z.
Proof.
  induction l as [|y r IH]; intros x; cbn [max_element].
  - cbn. split; [auto|]. intros y [->|[]]. lia.
  - destruct (Z.ltb_spec (proj x) (proj y)) as [H|H].
    + destruct (IH y) as [H1 H2]. split; [right; exact H1|].
      intros w [->|Hw]; [specialize (H2 y (or_introl eq_refl)); lia|apply H2; exact Hw].
    + destruct (IH x) as [H1 H2]. split; [cbn in *; tauto|].
      intros w [->|[->|Hw]].
      * apply H2; cbn; auto.
      * specialize (H2 x (or_introl eq_refl)); lia.
      * apply H2; cbn; auto.
Qed.

Lemma check_iff fmt f p : regular f p ->
  iv_invalidated (is_invalidated fmt f p) = true <-> stale f p.
Proof.
  intros Hreg.
  assert (Htail : (forall rf, p_retcode p = Some rf -> exists x, f rf = Some x /\ read_retcode x = 0%Z) ->
          iv_invalidated (is_invalidated fmt f p) = true <-> out_of_date f p).
  { intros Hrc. unfold is_invalidated.
    assert (Et : forall (b : inval_result), match p_retcode p with
                 | None => b
                 | Some rf => match f rf with
                     | Some x => let last := read_retcode x in
                       if (last =? 0)%Z then b else InvalResult true ("last retcode is nonzero: " ++ dec_Z last ++ " in " ++ rf)
                     | None => InvalResult true ("no retcode file" ++ rf) end end = b).
    { intros b. destruct (p_retcode p) as [rf|]; [|reflexivity].
      destruct (Hrc rf eq_refl) as (x & -> & E). cbn zeta. rewrite E. reflexivity. }
    cbn zeta in *. rewrite Et. clear Et.
    unfold out_of_date. destruct (p_output p) as [|o os] eqn:Eo.
    { split; [auto|reflexivity]. }
    destruct Hreg as [E|(Hi & Hex & Hpos)]; [congruence|].
    destruct (p_input p) as [|i is] eqn:Ei; [congruence|].
    set (old := min_element (path_to_write_time f) o os).
    set (new := max_element (path_to_write_time f) i is).
    destruct (min_element_spec (path_to_write_time f) os o) as [Ho1 Ho2]. fold old in Ho1, Ho2.
    destruct (max_element_spec (path_to_write_time f) is i) as [Hi1 Hi2]. fold new in Hi1, Hi2.
    rewrite Eo in Hpos. 
    unfold fs_exists. destruct (f old) as [xo|] eqn:Exo; cbn [negb iv_invalidated].
    2:{ split; [|reflexivity]. intros _. right. left. exists old. auto. }
    destruct (f new) as [xn|] eqn:Exn; [|exfalso; apply (Hex new); assumption].
    unfold path_to_write_time at 1 2. rewrite Exo, Exn. rewrite Z.leb_le. split.
    - intros H. right. right. exists old, new, xo, xn. auto.
    - intros [E|[(m & Hm & Em)|(o' & i' & xo' & xi' & H1 & H2 & E1 & E2 & H)]]; [discriminate| |].
      + specialize (Hpos (ex_intro _ m (conj Hm Em)) old xo Ho1 Exo).
        specialize (Ho2 m Hm). unfold path_to_write_time in Ho2. rewrite Exo, Em in Ho2. lia.
      + specialize (Ho2 o' H1). specialize (Hi2 i' H2). unfold path_to_write_time in Ho2, Hi2.
        rewrite Exo, E1 in Ho2. rewrite Exn, E2 in Hi2. lia. }
  destruct (p_retcode p) as [rf|] eqn:Er.
  2:{ rewrite Htail by (intros; discriminate). unfold stale, last_run_bad. rewrite Er.
      split; [auto|]. intros [(rf & E & _)|H]; [discriminate|exact H]. }
  assert (Hbad : last_run_bad f p -> iv_invalidated (is_invalidated fmt f p) = true).
  { intros (rf' & E & H). unfold is_invalidated. rewrite E. destruct H as [->|(x & -> & H)]; [reflexivity|].
    cbn zeta. apply Z.eqb_neq in H. rewrite H. reflexivity. }
  destruct (f rf) as [x|] eqn:Ex.
  2:{ split; [intros _|intros _; apply Hbad]; [left|]; exists rf; auto. }
  destruct (Z.eq_dec (read_retcode x) 0) as [E|E].
  - rewrite Htail.
    2:{ intros rf' E'. inversion E'. subst. eauto. }
    split; [right; assumption|]. intros [(rf' & E1 & [E2|(x' & E2 & E3)])|H]; [congruence|congruence|exact H].
  - split; [intros _; left|intros _; apply Hbad]; exists rf; eauto.
Qed.

Lemma missing_output fmt f p o :
  p_input p <> [] -> In o (p_output p) -> f o = None ->
  (forall o' x, In o' (p_output p) -> f o' = Some x -> (0 < f_time x)%Z) ->
  iv_invalidated (is_invalidated fmt f p) = true.
Proof.
  intros Hi Ho Eo Hpos. unfold is_invalidated.
  destruct (p_output p) as [|o1 os] eqn:E; [destruct Ho|].
  destruct (p_input p) as [|i is]; [congruence|].
  set (old := min_element (path_to_write_time f) o1 os).
  destruct (min_element_spec (path_to_write_time f) os o1) as [Ho1 Ho2]. fold old in Ho1, Ho2.
  assert (En : f old = None).
  { destruct (f old) as [x|] eqn:Ex; [|reflexivity]. exfalso.
    specialize (Hpos _ _ Ho1 Ex). specialize (Ho2 _ Ho). unfold path_to_write_time in Ho2.
    rewrite Ex, Eo in Ho2. lia. }
  cbn zeta. unfold fs_exists. rewrite En. cbn [negb].
  destruct (p_retcode p) as [rf|]; [|reflexivity].
  destruct (f rf) as [x|]; [|reflexivity]. destruct (read_retcode x =? 0)%Z; reflexivity.
Qed.

(** A bad last run is always noticed. *)
Lemma bad_run_noticed f p : last_run_bad f p -> invalidated f p.
Proof.
  intros (rf' & E & H) fmt. unfold is_invalidated. rewrite E. destruct H as [->|(x & -> & H)]; [reflexivity|].
  cbn zeta. apply Z.eqb_neq in H. rewrite H. reflexivity.
Qed.

Definition chunk_fold (cs : list (bool * string)) (r : run_result) : run_result :=
  fold_left (fun r (c : bool * string) => insert_chunk r (if fst c then STANDARD else ERROR) (snd c)) cs r.

Lemma chunk_fold_spec cs : forall r,
  chunk_fold cs r = RunResult (rr_retcode r) (rr_output r ++ map captured cs) (rr_log r).
Proof.
  induction cs as [|c cs IH]; intros [rc out log]; cbn [chunk_fold fold_left map].
  - rewrite app_nil_r. reflexivity.
  - unfold chunk_fold in IH. rewrite IH. cbn. rewrite <- app_assoc. reflexivity.
Qed.

Lemma ec_set_false e : ec_set e = false <-> ec_value e = 0%Z.
Proof. unfold ec_set. rewrite Bool.negb_false_iff. apply Z.eqb_eq. Qed.

Lemma run_completed p e f0 code : completed e code ->
  process_run p e f0 =
    let res := RunResult code
                 ((if (code =? 0)%Z then [] else [Chunk STANDARD ("cmd: " ++ format_cmd (p_cmd p))]) ++
                  map captured (sb_chunks e))
                 ("cmd: " ++ format_cmd (p_cmd p)) in
    match p_retcode p with
    | None => (JRet res, sb_fs e)
    | Some rf =>
        match sb_remove_throws e with
        | Some what => (JThrowStd what, sb_fs e)
        | None => (JRet res,
                   if sb_can_create e
                   then fs_set (fs_set (sb_fs e) rf None) rf (Some (File (sb_now e) (dec_Z code) true))
                   else fs_set (sb_fs e) rf None)
        end
    end.
Proof.
  intros (H1 & H2 & H3 & H4). unfold process_run.
  apply ec_set_false in H1, H2, H4. rewrite H1, H2. destruct (sb_exit e) as [code' ec].
  cbn [fst snd] in *. subst code'. rewrite H4. fold (chunk_fold (sb_chunks e)).
  rewrite chunk_fold_spec. cbn [rr_output rr_log rr_retcode app]. cbn zeta.
  destruct (code =? 0)%Z; reflexivity.
Qed.

Lemma process_result p e f0 r f1 : process_run p e f0 = (JRet r, f1) ->
  (rr_retcode r = 0%Z <-> completed e 0) /\
  (rr_log r = "cmd: " ++ format_cmd (p_cmd p))%string /\
  (completed e 0 -> rr_output r = map captured (sb_chunks e)) /\
  (forall code, code <> 0%Z -> completed e code ->
     rr_retcode r = code /\
     rr_output r = Chunk STANDARD ("cmd: " ++ format_cmd (p_cmd p)) :: map captured (sb_chunks e)) /\
  ((forall code, ~ completed e code) ->
     (ec_value (sb_start e) <> 0%Z ->
        rr_retcode r = ec_value (sb_start e) /\
        rr_output r = [Chunk ERROR (if ec_not_found (sb_start e)
                                    then "Program not found. Make sure it's available from the PATH." ++ newline
                                    else ec_message (sb_start e))%string]) /\
     (ec_value (sb_start e) = 0%Z -> ec_value (sb_drain e) <> 0%Z ->
        rr_retcode r = ec_value (sb_drain e) /\
        rr_output r = map captured (sb_chunks e) ++ [Chunk ERROR (ec_message (sb_drain e))]) /\
     (ec_value (sb_start e) = 0%Z -> ec_value (sb_drain e) = 0%Z ->
        rr_retcode r = ec_value (snd (sb_exit e)) /\
        rr_output r = map captured (sb_chunks e) ++ [Chunk ERROR (ec_message (snd (sb_exit e)))])).
Proof.
  intros H.
  destruct (Z.eq_dec (ec_value (sb_start e)) 0) as [H1|H1];
    [destruct (Z.eq_dec (ec_value (sb_drain e)) 0) as [H2|H2];
       [destruct (Z.eq_dec (ec_value (snd (sb_exit e))) 0) as [H3|H3]|]|].
  - set (code := fst (sb_exit e)).
    assert (Hc : completed e code) by (repeat split; assumption).
    assert (Hu : forall k, completed e k -> k = code) by (intros k (_ & _ & E & _); symmetry; exact E).
    rewrite (run_completed p e f0 code Hc) in H. cbn zeta in H.
    assert (Er : r = RunResult code
                 ((if (code =? 0)%Z then [] else [Chunk STANDARD ("cmd: " ++ format_cmd (p_cmd p))]) ++
                  map captured (sb_chunks e))
                 ("cmd: " ++ format_cmd (p_cmd p))).
    { destruct (p_retcode p); [destruct (sb_remove_throws e)|]; inversion H; reflexivity. }
    subst r. cbn [rr_retcode rr_output rr_log]. clear H. clearbody code.
    split; [split; [intros ->; exact Hc|intros H; symmetry; apply Hu; exact H]|].
    split; [reflexivity|]. split; [intros H; apply Hu in H; subst code; reflexivity|].
    split; [|intros H; destruct (H _ Hc)].
    intros k Hk H. apply Hu in H. subst k. split; [reflexivity|].
    apply Z.eqb_neq in Hk. rewrite Hk. reflexivity.
  - assert (Hn : forall k, ~ completed e k) by (intros k (_ & _ & _ & E); auto).
    unfold process_run in H. pose proof (proj2 (ec_set_false _) H1) as E1. pose proof (proj2 (ec_set_false _) H2) as E2.
    rewrite E1, E2 in H. destruct (sb_exit e) as [code ec] eqn:Ex. cbn [snd] in *.
    assert (E3 : ec_set ec = true) by (destruct (ec_set ec) eqn:E; [reflexivity|apply ec_set_false in E; congruence]).
    rewrite E3 in H. fold (chunk_fold (sb_chunks e)) in H. rewrite chunk_fold_spec in H.
    cbn in H. inversion H. subst r. cbn [rr_retcode rr_output rr_log].
    split; [split; [intros; congruence|intros C; destruct (Hn _ C)]|].
    split; [reflexivity|]. split; [intros C; destruct (Hn _ C)|].
    split; [intros k _ C; destruct (Hn _ C)|]. intros _.
    repeat split; intros; try congruence; reflexivity.
  - assert (Hn : forall k, ~ completed e k) by (intros k (_ & E & _); auto).
    unfold process_run in H. pose proof (proj2 (ec_set_false _) H1) as E1.
    assert (E2 : ec_set (sb_drain e) = true) by (destruct (ec_set (sb_drain e)) eqn:E; [reflexivity|apply ec_set_false in E; congruence]).
    rewrite E1, E2 in H. fold (chunk_fold (sb_chunks e)) in H. rewrite chunk_fold_spec in H.
    cbn in H. inversion H. subst r. cbn [rr_retcode rr_output rr_log].
    split; [split; [intros; congruence|intros C; destruct (Hn _ C)]|].
    split; [reflexivity|]. split; [intros C; destruct (Hn _ C)|].
    split; [intros k _ C; destruct (Hn _ C)|]. intros _.
    repeat split; intros; try congruence; reflexivity.
  - assert (Hn : forall k, ~ completed e k) by (intros k (E & _); auto).
    unfold process_run in H.
    assert (E1 : ec_set (sb_start e) = true) by (destruct (ec_set (sb_start e)) eqn:E; [reflexivity|apply ec_set_false in E; congruence]).
    rewrite E1 in H. cbn in H. inversion H. subst r. cbn [insert_err insert_chunk rr_retcode rr_output rr_log app].
    split; [split; [intros; exfalso; apply H1; assumption|intros C; destruct (Hn _ C)]|].
    split; [reflexivity|]. split; [intros C; destruct (Hn _ C)|].
    split; [intros k _ C; destruct (Hn _ C)|]. intros _.
    split; [|split; intros; exfalso; apply H1; assumption]. intros _. split; [reflexivity|].
    destruct (ec_not_found (sb_start e)); reflexivity.
Qed.

Lemma retcode_round_trip p e f0 rf code :
  completed e code -> is_int code -> p_retcode p = Some rf ->
  sb_remove_throws e = None -> sb_can_create e = true ->
  exists r f1, process_run p e f0 = (JRet r, f1) /\ rr_retcode r = code /\
    (exists x, f1 rf = Some x /\ read_retcode x = code) /\
    (forall q, q <> rf -> f1 q = sb_fs e q) /\
    (code <> 0%Z -> forall f2, f2 rf = f1 rf -> invalidated f2 p).
Proof.
  intros Hc Hi Hrf Ht Hcr. rewrite (run_completed p e f0 code Hc). cbn zeta. rewrite Hrf, Ht, Hcr.
  do 2 eexists. split; [reflexivity|]. split; [reflexivity|].
  assert (E : forall x, fs_set (fs_set (sb_fs e) rf None) rf x rf = x)
    by (intros x; unfold fs_set; rewrite String.eqb_refl; reflexivity).
  assert (Hread : read_retcode (File (sb_now e) (dec_Z code) true) = code)
    by (unfold read_retcode; cbn; apply read_int_dec; exact Hi).
  rewrite E. split; [eauto|]. split.
  - intros q Hq. unfold fs_set. apply String.eqb_neq in Hq. rewrite Hq. reflexivity.
  - intros Hn f2 E2. apply bad_run_noticed. exists rf. split; [exact Hrf|]. right. rewrite E2.
    eexists. split; [reflexivity|]. rewrite Hread. exact Hn.
Qed.

Lemma failed_run_retried p e f0 rf o f1 :
  p_retcode p = Some rf -> process_run p e f0 = (o, f1) -> rr_retcode (run_lambda o) <> 0%Z ->
  ((exists code, is_int code /\ completed e code) /\ sb_remove_throws e = None \/
   last_run_bad f1 p) ->
  invalidated f1 p.
Proof.
  intros Hrf H Hn [((code & Hi & Hc) & Ht)|Hbad]; [|apply bad_run_noticed; exact Hbad].
  rewrite (run_completed p e f0 code Hc) in H. cbn zeta in H. rewrite Hrf, Ht in H.
  inversion H. subst o f1. cbn [run_lambda rr_retcode] in Hn. clear H.
  apply bad_run_noticed. exists rf. split; [exact Hrf|].
  destruct (sb_can_create e); unfold fs_set; rewrite String.eqb_refl; [right|left; reflexivity].
  eexists. split; [reflexivity|]. unfold read_retcode. cbn. rewrite read_int_dec by exact Hi. exact Hn.
Qed.

(** derive *)
Lemma derive_spec_aux args : forall r,
  fold_left derive_arg args r =
  Process (p_cmd r ++ map arg_text args) (p_input r ++ flat_map arg_input args)
          (p_output r ++ flat_map arg_output args) (p_retcode r).
Proof.
  induction args as [|a args IH]; intros [c i o rc]; cbn [fold_left map flat_map].
  - rewrite !app_nil_r. reflexivity.
  - rewrite IH. destruct a; cbn; rewrite <- ?app_assoc; reflexivity.
Qed.

Lemma derive_spec args :
  p_cmd (derive args) = map arg_text args /\
  p_input (derive args) = flat_map arg_input args /\
  p_output (derive args) = flat_map arg_output args /\
  p_retcode (derive args) = None.
Proof. unfold derive. rewrite derive_spec_aux. repeat split; reflexivity. Qed.

(** format_cmd *)
Fixpoint ends_bs (s : string) : bool :=
  match s with
  | EmptyString => false
  | String a EmptyString => Ascii.eqb a "\"
  | String _ r => ends_bs r
  end.

Lemma ends_bs_spec s : ends_bs s = true -> ends_with_backslash s.
Proof.
  induction s as [|a s IH]; [discriminate|]. destruct s as [|b s].
  - cbn. intros H. apply Ascii.eqb_eq in H. subst a. exists ""%string. reflexivity.
  - intros H. destruct (IH H) as [r E]. exists (String a r). rewrite E. reflexivity.
Qed.

Lemma escape_split : forall a b x y, ends_bs a = false -> ends_bs b = false ->
  (escape_spaces a ++ String " " x = escape_spaces b ++ String " " y)%string -> a = b /\ x = y.
Proof.
  induction a as [|c a IH]; intros b x y Ha Hb H.
  - destruct b as [|d b]; [inversion H; auto|]. exfalso. cbn in H.
    destruct (Ascii.eqb_spec d " "); [discriminate|]. inversion H. congruence.
  - destruct b as [|d b].
    + exfalso. cbn in H. destruct (Ascii.eqb_spec c " "); [discriminate|]. inversion H. congruence.
    + assert (Ha' : ends_bs a = false) by (destruct a; [reflexivity|exact Ha]).
      assert (Hb' : ends_bs b = false) by (destruct b; [reflexivity|exact Hb]).
      cbn [escape_spaces] in H.
      destruct (Ascii.eqb_spec c " ") as [Ec|Ec], (Ascii.eqb_spec d " ") as [Ed|Ed]; cbn [append] in H.
      * inversion H as [E]. destruct (IH _ _ _ Ha' Hb' E) as [-> ->]. subst. auto.
      * exfalso. inversion H as [[E1 E2]]. subst d. destruct b as [|d b].
        { cbn in Hb. discriminate. }
        cbn [escape_spaces append] in E2. destruct (Ascii.eqb_spec d " "); cbn in E2; inversion E2; congruence.
      * exfalso. inversion H as [[E1 E2]]. subst c. destruct a as [|c a].
        { cbn in Ha. discriminate. }
        cbn [escape_spaces append] in E2. destruct (Ascii.eqb_spec c " "); cbn in E2; inversion E2; congruence.
      * inversion H as [[E1 E2]]. destruct (IH _ _ _ Ha' Hb' E2) as [-> ->]. subst. auto.
Qed.

Fixpoint cmd_text (cmd : list string) : string :=
  match cmd with
  | [] => EmptyString
  | a :: r => (escape_spaces a ++ String " " (cmd_text r))%string
  end.

Lemma str_app_assoc (a b c : string) : ((a ++ b) ++ c = a ++ (b ++ c))%string.
Proof. induction a; cbn; congruence. Qed.

Lemma str_app_nil (a : string) : (a ++ "" = a)%string.
Proof. induction a; cbn; congruence. Qed.

Lemma format_cmd_text cmd : format_cmd cmd = (cmd_text cmd ++ newline)%string.
Proof.
  unfold format_cmd. f_equal.
  assert (H : forall acc, fold_left (fun line arg => line ++ escape_spaces arg ++ " ")%string cmd acc = (acc ++ cmd_text cmd)%string).
  { induction cmd as [|a cmd IH]; intros acc; cbn [fold_left cmd_text].
    - symmetry; apply str_app_nil.
    - rewrite IH, !str_app_assoc. reflexivity. }
  apply H.
Qed.

Lemma str_app_last_inj : forall (a b c : string), (a ++ c = b ++ c)%string -> a = b.
Proof.
  intros a b c H. assert (E : String.length a = String.length b).
  { assert (L : forall u v, String.length (u ++ v) = (String.length u + String.length v)%nat)
      by (induction u; cbn; congruence).
    assert (String.length (a ++ c) = String.length (b ++ c)) by congruence. rewrite !L in *. lia. }
  revert b H E. induction a as [|x a IH]; intros [|y b] H E; cbn in *; try discriminate; [reflexivity|].
  inversion H. f_equal. apply IH; [assumption|lia].
Qed.

Lemma format_cmd_inj c1 : forall c2,
  (forall a, In a (c1 ++ c2) -> ~ ends_with_backslash a) -> format_cmd c1 = format_cmd c2 -> c1 = c2.
Proof.
  intros c2 Hb H. rewrite !format_cmd_text in H. apply str_app_last_inj in H.
  assert (Hb' : forall a, In a (c1 ++ c2) -> ends_bs a = false).
  { intros a Ha. destruct (ends_bs a) eqn:E; [|reflexivity]. apply ends_bs_spec in E. destruct (Hb _ Ha E). }
  clear Hb. revert c2 Hb' H. induction c1 as [|a c1 IH]; intros [|b c2] Hb H.
  - reflexivity.
  - exfalso. cbn in H. destruct (escape_spaces b); discriminate.
  - exfalso. cbn in H. destruct (escape_spaces a); discriminate.
  - cbn [cmd_text] in H. apply escape_split in H.
    + destruct H as [-> H]. f_equal. apply IH; [|exact H].
      intros x Hx. apply Hb. cbn. right. apply in_app_iff in Hx. apply in_app_iff. cbn. tauto.
    + apply Hb. cbn. auto.
    + apply Hb. cbn. right. apply in_app_iff. cbn. auto.
Qed.

(** Incremental builds. *)
Lemma incremental_build fmt f job st ts filt addr c z s er :
  execution_of st ts filt (process_checks fmt f job) addr c ->
  (forall t, selected st ts filt t -> regular f (job t)) ->
  reachable c z s -> result s = RRecord er ->
  (forall r, In r (er_runs er) -> r_status r <> FAIL) ->
  forall t, selected st ts filt t ->
    (must_run st ts filt f job t -> In (EBegin (addr t)) (trace s)) /\
    (~ must_run st ts filt f job t -> ~ In (EBegin (addr t)) (trace s)) /\
    exists r, In r (er_runs er) /\ r_task r = t /\
      (must_run st ts filt f job t -> r_status r = OK) /\
      (~ must_run st ts filt f job t -> r_status r = SKIP).
Proof.
  intros He Hreg HR H Hok t Ht.
  assert (E : must_run st ts filt f job t <-> task_invalidated st ts filt (process_checks fmt f job) t).
  { assert (Hs : forall u, clos_refl_trans tid (selected_inval st ts filt) t u -> selected st ts filt u).
    { intros u Hu. apply clos_rt_rtn1 in Hu. destruct Hu as [|y u (_ & Hs & _)]; assumption. }
    unfold must_run, task_invalidated, process_checks. split.
    - intros (u & Hu & Hst). exists u. eexists. split; [exact Hu|].
      rewrite (proj2 (check_iff fmt f (job u) (Hreg u (Hs u Hu))) Hst). reflexivity.
    - intros (u & log & Hu & Hi). exists u. split; [exact Hu|].
      apply (check_iff fmt f (job u) (Hreg u (Hs u Hu))). inversion Hi. reflexivity. }
  destruct (set_incremental st ts filt _ addr c He z s er HR H Hok t Ht) as (H1 & H2 & r & H3 & H4 & H5 & H6).
  rewrite E. split; [exact H1|]. split; [exact H2|]. exists r. rewrite E. repeat split; assumption.
Qed.

Lemma no_input_inverted fmt f p :
  p_input p = [] -> p_output p <> [] -> ~ last_run_bad f p ->
  (iv_invalidated (is_invalidated fmt f p) = true <-> forall o, In o (p_output p) -> f o <> None).
Proof.
  intros Hi Ho Hb. unfold is_invalidated. rewrite Hi.
  destruct (p_output p) as [|o os] eqn:Eo; [congruence|]. cbn zeta.
  assert (E : forall b, forallb (fs_exists f) (o :: os) = b ->
     iv_invalidated match p_retcode p with
                 | None => InvalResult b "output existance"
                 | Some rf => match f rf with
                     | Some x => if (read_retcode x =? 0)%Z then InvalResult b "output existance"
                         else InvalResult true ("last retcode is nonzero: " ++ dec_Z (read_retcode x) ++ " in " ++ rf)
                     | None => InvalResult true ("no retcode file" ++ rf) end end = b).
  { intros b _. destruct (p_retcode p) as [rf|] eqn:Er; [|reflexivity].
    destruct (f rf) as [x|] eqn:Ex.
    - destruct (Z.eqb_spec (read_retcode x) 0); [reflexivity|].
      exfalso. apply Hb. exists rf. split; [exact Er|]. right. eauto.
    - exfalso. apply Hb. exists rf. auto. }
  rewrite (E _ eq_refl). rewrite forallb_forall. unfold fs_exists.
  split; intros H x Hx; specialize (H x Hx); destruct (f x); congruence.
Qed.

Lemma process_returns p e f0 :
  (exists r f1, process_run p e f0 = (JRet r, f1)) \/
  (exists rf what code, p_retcode p = Some rf /\ sb_remove_throws e = Some what /\ completed e code /\
     process_run p e f0 = (JThrowStd what, sb_fs e)).
Proof.
  unfold process_run at 1. destruct (ec_set (sb_start e)) eqn:E1; [left; eauto|].
  destruct (ec_set (sb_drain e)) eqn:E2; [left; eauto|].
  destruct (sb_exit e) as [code ec] eqn:Ex. destruct (ec_set ec) eqn:E3; [left; eauto|].
  cbn zeta. destruct (p_retcode p) as [rf|] eqn:Er; [|left; eauto].
  destruct (sb_remove_throws e) as [what|] eqn:Et; [|left; eauto].
  right. exists rf, what, code.
  assert (Hc : completed e code).
  { apply ec_set_false in E1, E2, E3. repeat split; try assumption; rewrite Ex; [reflexivity|exact E3]. }
  rewrite (run_completed p e f0 code Hc). cbn zeta. rewrite Er, Et. auto.
Qed.
