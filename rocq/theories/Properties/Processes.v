(** Process jobs: C28 - C34, C62. *)
From Coq Require Import String Ascii Relations Permutation Lia.
From Verif Require Import Model.Common Model.Records Model.Jobs Model.TaskSet Model.Dag
     Model.Sched Model.Exec Model.ExecSet Model.Text Model.Process Model.JobTypes
     Spec.Graph Spec.Trace Spec.Tasks Spec.Files Spec.Reasons
     Properties.Demo Proofs.DemoFacts Proofs.TaskFacts Proofs.ProcessFacts Proofs.ProcessExact Proofs.ReasonFacts Properties.TaskSets.
Open Scope string_scope.
Open Scope nat_scope.
Open Scope list_scope.

(** A few files: a.c and a.h older than a.o; b.c newer than b.o; "gone" does not exist. *)
Definition fs_demo : fs := fun p =>
  if String.eqb p "a.c" then Some (File 10 "" true)
  else if String.eqb p "a.h" then Some (File 12 "" true)
  else if String.eqb p "a.o" then Some (File 20 "" true)
  else if String.eqb p "b.c" then Some (File 30 "" true)
  else if String.eqb p "b.o" then Some (File 25 "" true)
  else if String.eqb p "rc0" then Some (File 21 "0" true)
  else if String.eqb p "rc3" then Some (File 21 "3" true)
  else None.
Definition cc_a : process := Process ["cc"; "a.c"] ["a.c"; "a.h"] ["a.o"] None.
Definition cc_b : process := Process ["cc"; "b.c"] ["b.c"; "a.h"] ["b.o"] (Some "rc0").
Definition no_error : error_code := ErrorCode 0 false "".
Definition exits (code : Z) : sub :=
  Sub no_error [(true, "compiling"); (false, "warning")] no_error (code, no_error) fs_demo None true 40.

(** * C28 Process invalidation rule.  Partial: there has to be an input, every input has to
    exist, and file times have to be after the epoch if an output is missing. *)
Theorem C28_check_partial : forall fmt f p,
  regular f p -> (iv_invalidated (is_invalidated fmt f p) = true <-> stale f p).
Proof. exact check_iff. Qed.
Print Assumptions C28_check_partial.

Lemma regular_a : regular fs_demo cc_a.
Proof.
  right. split; [discriminate|]. split.
  - intros i [<-|[<-|[]]]; discriminate.
  - intros (o & [<-|[]] & H). discriminate.
Qed.
Lemma regular_b : regular fs_demo cc_b.
Proof.
  right. split; [discriminate|]. split.
  - intros i [<-|[<-|[]]]; discriminate.
  - intros (o & [<-|[]] & H). discriminate.
Qed.
Lemma stale_b : stale fs_demo cc_b.
Proof. right. right. right. exists "b.o", "b.c". do 2 eexists. cbn. repeat split; auto. discriminate. Qed.
Lemma fresh_a : ~ stale fs_demo cc_a.
Proof.
  intros [(rf & H & _)|[H|[(o & [<-|[]] & H)|(o & i & xo & xi & [<-|[]] & [<-|[<-|[]]] & H1 & H2 & H)]]];
    try discriminate; inversion H1; inversion H2; subst; cbn in H; lia.
Qed.
Example C28_case : regular fs_demo cc_a /\ ~ stale fs_demo cc_a /\ regular fs_demo cc_b /\ stale fs_demo cc_b.
Proof. auto using regular_a, regular_b, fresh_a, stale_b. Qed.

(** Exactly when it is invalidated, whatever the files are. *)
Theorem C28_exactly : forall fmt f p,
  iv_invalidated (is_invalidated fmt f p) = true <-> noticed f p.
Proof. exact check_exact. Qed.
Print Assumptions C28_exactly.

(** With outputs and no input the answer is the wrong way round: it is invalidated exactly
    if all outputs exist. *)
Theorem C28_no_input : forall fmt f p,
  p_input p = [] -> p_output p <> [] -> ~ last_run_bad f p ->
  (iv_invalidated (is_invalidated fmt f p) = true <-> forall o, In o (p_output p) -> f o <> None).
Proof. exact no_input_inverted. Qed.
Print Assumptions C28_no_input.

Example C28_case_no_input :
  let p := Process ["gen"] [] ["a.o"; "gone"] None in
  p_input p = [] /\ p_output p <> [] /\ ~ last_run_bad fs_demo p.
Proof. split; [reflexivity|]. split; [discriminate|]. intros (rf & H & _). discriminate. Qed.

Theorem C28_refuted : exists f p q,
  (forall fmt, iv_invalidated (is_invalidated fmt f p) = true) /\ ~ stale f p /\
  (forall fmt, iv_invalidated (is_invalidated fmt f q) = false) /\ stale f q.
Proof.
  exists fs_demo, (Process ["gen"] [] ["a.o"] None), (Process ["gen"] [] ["gone"] None).
  split; [reflexivity|]. split; [|split; [reflexivity|]].
  - intros [(rf & H & _)|[H|[(o & [<-|[]] & H)|(o & i & xo & xi & _ & [] & _)]]]; discriminate.
  - right. right. left. exists "gone". cbn. auto.
Qed.
Print Assumptions C28_refuted.

(** * C29 A missing output invalidates.  Partial: there has to be an input, and the times of
    those outputs that exist have to be after the epoch of the file clock. *)
Theorem C29_missing_output_partial : forall fmt f p o,
  p_input p <> [] -> In o (p_output p) -> f o = None ->
  (forall o' x, In o' (p_output p) -> f o' = Some x -> (0 < f_time x)%Z) ->
  iv_invalidated (is_invalidated fmt f p) = true.
Proof. exact missing_output. Qed.
Print Assumptions C29_missing_output_partial.

Example C29_case :
  let p := Process ["cc"] ["b.c"] ["a.o"; "gone"] None in
  p_input p <> [] /\ In "gone" (p_output p) /\ fs_demo "gone" = None /\
  forall o x, In o (p_output p) -> fs_demo o = Some x -> (0 < f_time x)%Z.
Proof.
  intros p. split; [discriminate|]. split; [cbn; auto|]. split; [reflexivity|].
  intros o x [<-|[<-|[]]] H; inversion H; subst; cbn; lia.
Qed.

(** It suffices that one input is dated at the epoch or later, or is missing. *)
Theorem C29_late_input_partial : forall fmt f p o i,
  In o (p_output p) -> f o = None -> In i (p_input p) -> (0 <= date f i)%Z ->
  iv_invalidated (is_invalidated fmt f p) = true.
Proof. exact missing_seen. Qed.
Print Assumptions C29_late_input_partial.

(** When exactly a missing output goes unnoticed: the last run is not known to have failed,
    and there is no input, or all inputs are dated before all outputs (a missing file counts
    as dated at the epoch) and the first one of the oldest outputs exists. *)
Theorem C29_exactly : forall fmt f p o, In o (p_output p) -> f o = None ->
  (iv_invalidated (is_invalidated fmt f p) = false <->
   ~ last_run_bad f p /\
   (p_input p = [] \/
    ((forall o' i, In o' (p_output p) -> In i (p_input p) -> (date f i < date f o')%Z) /\
     exists l1 o' l2, p_output p = l1 ++ o' :: l2 /\ f o' <> None /\
       (forall q, In q l1 -> (date f o' < date f q)%Z) /\ (forall q, In q l2 -> (date f o' <= date f q)%Z)))).
Proof. exact missing_exact. Qed.
Print Assumptions C29_exactly.

Example C29_case_exact :
  let p := Process ["cc"] ["b.c"] ["a.o"; "gone"] None in
  In "gone" (p_output p) /\ fs_demo "gone" = None /\ In "b.c" (p_input p) /\ (0 <= date fs_demo "b.c")%Z.
Proof. intros p. split; [cbn; auto|]. split; [reflexivity|]. split; [cbn; auto|]. vm_compute. discriminate. Qed.

(** File times before the epoch (as all are with libstdc++): the missing output is not seen
    if another output is newer than the inputs.  And without inputs it never is. *)
Theorem C29_refuted :
  (exists f p o, p_input p <> [] /\ (forall i, In i (p_input p) -> f i <> None) /\
     In o (p_output p) /\ f o = None /\ forall fmt, iv_invalidated (is_invalidated fmt f p) = false) /\
  (exists f p o, p_input p = [] /\ (forall o x, f o = Some x -> (0 < f_time x)%Z) /\
     In o (p_output p) /\ f o = None /\ forall fmt, iv_invalidated (is_invalidated fmt f p) = false).
Proof.
  split.
  - exists (fun p => if String.eqb p "in" then Some (File (-20) "" true)
                     else if String.eqb p "out" then Some (File (-10) "" true) else None),
      (Process [] ["in"] ["out"; "gone"] None), "gone".
    split; [discriminate|]. split; [intros i [<-|[]]; discriminate|].
    split; [cbn; auto|]. split; reflexivity.
  - exists (fun _ => None), (Process [] [] ["gone"] None), "gone".
    split; [reflexivity|]. split; [discriminate|]. split; [cbn; auto|]. split; reflexivity.
Qed.
Print Assumptions C29_refuted.

(** * C30 Return code file round trip *)
Theorem C30_round_trip : forall p e f0 rf code,
  completed e code -> is_int code -> p_retcode p = Some rf ->
  sb_remove_throws e = None -> sb_can_create e = true ->
  exists r f1, process_run p e f0 = (JRet r, f1) /\ rr_retcode r = code /\
    (exists x, f1 rf = Some x /\ read_retcode x = code) /\
    (forall q, q <> rf -> f1 q = sb_fs e q) /\
    (code <> 0%Z -> forall f2, f2 rf = f1 rf -> invalidated f2 p).
Proof. exact retcode_round_trip. Qed.
Print Assumptions C30_round_trip.

(** Whatever a retcode file contains, it is read as an int. *)
Theorem C30_always_int : forall x, is_int (read_retcode x).
Proof. exact read_retcode_int. Qed.
Print Assumptions C30_always_int.

(** White space, an optional sign and digits are read as the number they stand for, or the
    nearest int; anything else as 0. *)
Theorem C30_read : forall t ws g n rest, all_white ws -> ~ starts_with is_digit rest ->
  nearest_int (match g with Minus => - Z.of_N n | _ => Z.of_N n end)
    (read_retcode (File t (ws ++ sign_text g ++ dec_N n ++ rest) true)).
Proof. exact read_number. Qed.
Print Assumptions C30_read.

Theorem C30_read_nothing : forall t ws g rest, all_white ws -> ~ starts_with is_digit rest ->
  (g = Plain -> ~ starts_with (fun a => white a \/ a = "+"%char \/ a = "-"%char) rest) ->
  read_retcode (File t (ws ++ sign_text g ++ rest) true) = 0%Z.
Proof. exact read_nothing. Qed.
Print Assumptions C30_read_nothing.

(** A return code file that cannot be opened does not count: the check answers as if none had
    been declared. *)
Theorem C30_unreadable : forall fmt f p rf t x, p_retcode p = Some rf -> f rf = Some (File t x false) ->
  is_invalidated fmt f p = is_invalidated fmt f (Process (p_cmd p) (p_input p) (p_output p) None).
Proof. exact unreadable_code. Qed.
Print Assumptions C30_unreadable.

Example C30_case_unreadable : exists f, f "rc0" = Some (File 3 "7" false) /\ p_retcode cc_b = Some "rc0" /\
  iv_invalidated (is_invalidated (fun _ => "") f cc_b) = false.
Proof.
  exists (fun q => if String.eqb q "rc0" then Some (File 3 "7" false)
                   else if in_dec string_dec q (p_input cc_b) then Some (File 1 "" true)
                   else if in_dec string_dec q (p_output cc_b) then Some (File 2 "" true) else None).
  split; [reflexivity|]. split; vm_compute; reflexivity.
Qed.

Example C30_case_read : all_white (" " ++ newline) /\ ~ starts_with is_digit " 3" /\ ~ starts_with is_digit "x1" /\
  ~ starts_with (fun a => white a \/ a = "+"%char \/ a = "-"%char) "x1".
Proof.
  split; [cbn; repeat split; unfold white; cbn; auto 10|].
  split; [unfold starts_with, is_digit; cbn; lia|]. split; [unfold starts_with, is_digit; cbn; lia|].
  cbn. intros [H|[H|H]]; [|discriminate|discriminate]. unfold white in H. cbn in H. lia.
Qed.

Example C30_case_int : is_int (read_retcode (File 0 " -99999999999x" true)) /\
  read_retcode (File 0 " -99999999999x" true) = (-2147483648)%Z /\ read_retcode (File 0 " +17 3" true) = 17%Z.
Proof. split; [exact (read_retcode_int _)|split; reflexivity]. Qed.

Example C30_case : completed (exits (-7)) (-7) /\ is_int (-7) /\ p_retcode cc_b = Some "rc0" /\
  sb_remove_throws (exits (-7)) = None /\ sb_can_create (exits (-7)) = true.
Proof. repeat split; discriminate. Qed.

(** * C31 A failed process run is retried.  Partial: exactly if the program was started and
    waited for (and the old file could be removed), or the check says so of the files the
    program left, which may include the retcode file of an earlier run. *)
Theorem C31_retried_partial : forall p e f0 rf o f1,
  p_retcode p = Some rf -> process_run p e f0 = (o, f1) -> rr_retcode (run_lambda o) <> 0%Z ->
  is_int (fst (sb_exit e)) ->
  let left := if (ec_value (sb_start e) =? 0)%Z then sb_fs e else f0 in
  (invalidated f1 p <->
   ((exists code, completed e code) /\ sb_remove_throws e = None) \/ noticed left p).
Proof. exact failed_run_exact. Qed.
Print Assumptions C31_retried_partial.

Example C31_case :
  p_retcode cc_b = Some "rc0" /\ (exists o f1, process_run cc_b (exits 9) fs_demo = (o, f1) /\ rr_retcode (run_lambda o) <> 0%Z) /\
  is_int (fst (sb_exit (exits 9))) /\ (exists code, completed (exits 9) code) /\ sb_remove_throws (exits 9) = None.
Proof.
  split; [reflexivity|]. split; [do 2 eexists; split; [reflexivity|discriminate]|].
  split; [split; discriminate|]. split; [exists 9%Z; repeat split; discriminate|reflexivity].
Qed.

(** The program cannot be started (or drained, or waited for, or the old file cannot be
    removed): the retcode file still says 0, and the next check says "not invalidated". *)
Theorem C31_refuted : exists p f0, regular f0 p /\
  (exists e, ec_value (sb_start e) <> 0%Z /\ rr_retcode (run_lambda (fst (process_run p e f0))) <> 0%Z /\
     forall fmt, iv_invalidated (is_invalidated fmt (snd (process_run p e f0)) p) = false) /\
  (exists e, ec_value (sb_drain e) <> 0%Z /\ rr_retcode (run_lambda (fst (process_run p e f0))) <> 0%Z /\
     forall fmt, iv_invalidated (is_invalidated fmt (snd (process_run p e f0)) p) = false) /\
  (exists e, ec_value (snd (sb_exit e)) <> 0%Z /\ rr_retcode (run_lambda (fst (process_run p e f0))) <> 0%Z /\
     forall fmt, iv_invalidated (is_invalidated fmt (snd (process_run p e f0)) p) = false) /\
  (exists e, completed e 1 /\ rr_retcode (run_lambda (fst (process_run p e f0))) <> 0%Z /\
     forall fmt, iv_invalidated (is_invalidated fmt (snd (process_run p e f0)) p) = false).
Proof.
  pose (bad := ErrorCode 32 false "broken").
  exists (Process ["cc"] ["a.c"] ["a.o"] (Some "rc0")), fs_demo. split.
  - right. split; [discriminate|]. split.
    + intros i [<-|[]]. discriminate.
    + intros (o & [<-|[]] & H). discriminate.
  - split; [exists (Sub bad [] no_error (0, no_error)%Z fs_demo None true 40)|
    split; [exists (Sub no_error [] bad (0, no_error)%Z fs_demo None true 40)|
    split; [exists (Sub no_error [] no_error (0, bad)%Z fs_demo None true 40)|
            exists (Sub no_error [] no_error (1, no_error)%Z fs_demo (Some "permission") true 40)]]].
    all: split; [try discriminate; repeat split|split; [discriminate|reflexivity]].
Qed.
Print Assumptions C31_refuted.

(** * C32 Process result *)
Theorem C32_process_result : forall p e f0 r f1,
  process_run p e f0 = (JRet r, f1) ->
  (rr_retcode r = 0%Z <-> completed e 0) /\
  (rr_log r = "cmd: " ++ format_cmd (p_cmd p))%string /\
  (completed e 0 -> rr_output r = map captured (sb_chunks e)) /\
  (forall code, code <> 0%Z -> completed e code ->
     rr_retcode r = code /\
     rr_output r = Chunk STANDARD ("cmd: " ++ format_cmd (p_cmd p)) :: map captured (sb_chunks e)) /\
  ((forall code, ~ completed e code) ->
     (ec_value (sb_start e) <> 0%Z ->
        rr_retcode r = ec_value (sb_start e) /\
        rr_output r = [Chunk ERROR (if ec_not_found (sb_start e)
                                    then "Program not found. Make sure it's available from the PATH." ++ newline
                                    else ec_message (sb_start e))%string]) /\
     (ec_value (sb_start e) = 0%Z -> ec_value (sb_drain e) <> 0%Z ->
        rr_retcode r = ec_value (sb_drain e) /\
        rr_output r = map captured (sb_chunks e) ++ [Chunk ERROR (ec_message (sb_drain e))]) /\
     (ec_value (sb_start e) = 0%Z -> ec_value (sb_drain e) = 0%Z ->
        rr_retcode r = ec_value (snd (sb_exit e)) /\
        rr_output r = map captured (sb_chunks e) ++ [Chunk ERROR (ec_message (snd (sb_exit e)))])).
Proof. exact process_result. Qed.
Print Assumptions C32_process_result.

(** It returns unless the old retcode file cannot be removed. *)
Theorem C32_returns : forall p e f0,
  (exists r f1, process_run p e f0 = (JRet r, f1)) \/
  (exists rf what code, p_retcode p = Some rf /\ sb_remove_throws e = Some what /\ completed e code /\
     process_run p e f0 = (JThrowStd what, sb_fs e)).
Proof. exact process_returns. Qed.
Print Assumptions C32_returns.

Example C32_case : completed (exits 0) 0 /\ completed (exits 2) 2 /\
  process_run cc_a (exits 2) fs_demo =
    (JRet (RunResult 2 [Chunk STANDARD ("cmd: cc a.c " ++ newline); Chunk STANDARD "compiling"; Chunk ERROR "warning"]
             ("cmd: cc a.c " ++ newline)), fs_demo) /\
  exists e, (forall code, ~ completed e code) /\
    exists r f1, process_run cc_a e fs_demo = (JRet r, f1).
Proof.
  split; [repeat split|]. split; [repeat split|]. split; [reflexivity|].
  exists (Sub (ErrorCode 2 true "") [] no_error (0, no_error)%Z fs_demo None true 40).
  split; [intros code [H _]; discriminate|]. do 2 eexists. reflexivity.
Qed.

(** What the record of an executed process says.  [removed]: the old retcode file could be
    removed. *)
Theorem C32_recorded : forall c z s n r indet call f1 p e f0, wf_dag (c_dag c) -> reachable c z s ->
  In (EEnd n (fst (job_run indet call f1 e f0 (JobProcess p)))) (trace s) ->
  In r (records (trace s)) -> r_node r = n ->
  let removed := p_retcode p = None \/ sb_remove_throws e = None in
  (r_status r = OK \/ r_status r = FAIL) /\
  (r_status r = OK <-> completed e 0 /\ removed) /\
  (removed -> completed e 0 -> r_output r = map captured (sb_chunks e)) /\
  (removed -> forall code, code <> 0%Z -> completed e code ->
     r_retcode r = code /\
     r_output r = Chunk STANDARD ("cmd: " ++ format_cmd (p_cmd p))%string :: map captured (sb_chunks e)).
Proof. exact process_recorded. Qed.
Print Assumptions C32_recorded.

Example C32_case_recorded :
  let outcome := fun n => if n =? 1 then fst (job_run 0 CThrowOther fs_demo (exits 2) fs_demo (JobProcess cc_b)) else ok in
  wf_dag (c_dag (demo 2)) /\ reachable (demo 2) 0 (demo_end 2 outcome) /\
  In (EEnd 1 (fst (job_run 0 CThrowOther fs_demo (exits 2) fs_demo (JobProcess cc_b)))) (trace (demo_end 2 outcome)) /\
  exists r, In r (records (trace (demo_end 2 outcome))) /\ r_node r = 1 /\ r_status r = FAIL /\ r_retcode r = 2%Z.
Proof.
  cbn zeta. split; [exact wf_demo|]. split; [apply go_reachable; vm_compute; reflexivity|]. split; [find_in|].
  exists (nth 0 (records (trace (demo_end 2 (fun n => if n =? 1 then
     fst (job_run 0 CThrowOther fs_demo (exits 2) fs_demo (JobProcess cc_b)) else ok)))) (RunRecord 0 0 "" OK 0 0 0 [])).
  split; [find_in|vm_compute; auto].
Qed.

(** And of an executed callable: what it returned. *)
Theorem C32_callable_recorded : forall c z s n r indet rr f1 e f0, wf_dag (c_dag c) -> reachable c z s ->
  In (EEnd n (fst (job_run indet (CRet rr) f1 e f0 JobCallable))) (trace s) ->
  In r (records (trace s)) -> r_node r = n ->
  r_retcode r = rr_retcode rr /\ r_output r = rr_output rr /\
  (r_status r = OK <-> rr_retcode rr = 0%Z) /\ (r_status r = FAIL <-> rr_retcode rr <> 0%Z).
Proof. exact callable_recorded. Qed.
Print Assumptions C32_callable_recorded.

(** A result filled with insert_std and insert_err shows the pieces in order. *)
Theorem C32_written : forall ws r,
  fold_left write ws r = RunResult (rr_retcode r) (rr_output r ++ map captured ws) (rr_log r).
Proof. exact written. Qed.
Print Assumptions C32_written.

Example C32_case_written :
  let rr := fold_left write [(true, "a"); (false, "b")] (RunResult 0 [] "log") in
  let outcome := fun n => if n =? 1 then fst (job_run 7 (CRet rr) fs_demo (exits 2) fs_demo JobCallable) else ok in
  wf_dag (c_dag (demo 2)) /\ reachable (demo 2) 0 (demo_end 2 outcome) /\
  In (EEnd 1 (fst (job_run 7 (CRet rr) fs_demo (exits 2) fs_demo JobCallable))) (trace (demo_end 2 outcome)) /\
  exists r, In r (records (trace (demo_end 2 outcome))) /\ r_node r = 1 /\
    r_output r = [Chunk STANDARD "a"; Chunk ERROR "b"].
Proof.
  cbn zeta. split; [exact wf_demo|]. split; [apply go_reachable; vm_compute; reflexivity|]. split; [find_in|].
  exists (nth 0 (records (trace (demo_end 2 (fun n => if n =? 1 then fst (job_run 7
     (CRet (fold_left write [(true, "a"); (false, "b")] (RunResult 0 [] "log"))) fs_demo (exits 2) fs_demo JobCallable)
     else ok)))) (RunRecord 0 0 "" OK 0 0 0 [])).
  split; [find_in|vm_compute; auto].
Qed.

(** * C33 process::derive *)
Theorem C33_derive : forall args,
  p_cmd (derive args) = map arg_text args /\
  p_input (derive args) = flat_map arg_input args /\
  p_output (derive args) = flat_map arg_output args /\
  p_retcode (derive args) = None.
Proof. exact derive_spec. Qed.
Print Assumptions C33_derive.

Example C33_case : derive [DStr "cc"; DPath "a.c"; DStr "-o"; DOut "a.o"; DPath "a.h"] =
  Process ["cc"; "a.c"; "-o"; "a.o"; "a.h"] ["a.c"; "a.h"] ["a.o"] None.
Proof. reflexivity. Qed.

(** Completed with add_input, add_output and set_retcode_file. *)
Theorem C33_completed : forall args ms,
  let q := fold_left extend ms (derive args) in
  p_cmd q = map arg_text args /\
  p_input q = flat_map arg_input args ++ more_inputs ms /\
  p_output q = flat_map arg_output args ++ more_outputs ms /\
  p_retcode q = last_retcode_file ms.
Proof. exact chain_spec. Qed.
Print Assumptions C33_completed.

Example C33_case_completed :
  fold_left extend [AddInput "a.h"; SetRetcodeFile "rc"; AddOutput "a.d"; SetRetcodeFile "rc0"; AddInput "b.h"]
    (derive [DStr "cc"; DPath "a.c"; DOut "a.o"]) =
  Process ["cc"; "a.c"; "a.o"] ["a.c"; "a.h"; "b.h"] ["a.o"; "a.d"] (Some "rc0").
Proof. reflexivity. Qed.

(** * C34 Logged command lines.  Partial: only if no argument ends with a backslash. *)
Theorem C34_unambiguous_partial : forall c1 c2,
  (forall a, In a (c1 ++ c2) -> ~ ends_with_backslash a) -> format_cmd c1 = format_cmd c2 -> c1 = c2.
Proof. exact format_cmd_inj. Qed.
Print Assumptions C34_unambiguous_partial.

Example C34_case : forall a, In a (["echo"; "a b"; ""] ++ ["echo"; "a"; "\ b"]) -> ~ ends_with_backslash a.
Proof.
  intros a H [r E]. cbn in H.
  repeat (destruct H as [<-|H]; [repeat (destruct r; cbn in E; try discriminate)|]). exact H.
Qed.

(** Exactly which commands can be told from all others: those with no space in an argument
    and no backslash at the end of an argument other than the last. *)
Theorem C34_unique_iff : forall c,
  (forall c', format_cmd c' = format_cmd c -> c' = c) <->
  (forall a, In a c -> ~ has_space a) /\
  (forall l a b r, c = l ++ a :: b :: r -> ~ ends_with_backslash a).
Proof. exact unambiguous_iff. Qed.
Print Assumptions C34_unique_iff.

Theorem C34_refuted : exists c1 c2, c1 <> c2 /\ format_cmd c1 = format_cmd c2.
Proof. exists ["a\"; "b"], ["a b"]. split; [discriminate|reflexivity]. Qed.
Print Assumptions C34_refuted.

(** * C62 End-to-end incremental build.  Partial: under the conditions of C28. *)
Theorem C62_incremental_partial : forall fmt f job st ts filt addr c z s er,
  execution_of st ts filt (process_checks fmt f job) addr c ->
  (forall t, selected st ts filt t -> regular f (job t)) ->
  reachable c z s -> result s = RRecord er ->
  (forall r, In r (er_runs er) -> r_status r <> FAIL) ->
  forall t, selected st ts filt t ->
    (must_run st ts filt f job t -> In (EBegin (addr t)) (trace s)) /\
    (~ must_run st ts filt f job t -> ~ In (EBegin (addr t)) (trace s)) /\
    exists r, In r (er_runs er) /\ r_task r = t /\
      (must_run st ts filt f job t -> r_status r = OK) /\
      (~ must_run st ts filt f job t -> r_status r = SKIP).
Proof. exact incremental_build. Qed.
Print Assumptions C62_incremental_partial.

(** Whatever the files are: those tasks run whose check, or that of one they depend on or
    are invalidated by, says so (see C28_exactly). *)
Theorem C62_answers_decide : forall fmt f job st ts filt addr c z s er,
  execution_of st ts filt (process_checks fmt f job) addr c ->
  reachable c z s -> result s = RRecord er ->
  (forall r, In r (er_runs er) -> r_status r <> FAIL) ->
  forall t, selected st ts filt t ->
    (runs_here st ts filt f job t -> In (EBegin (addr t)) (trace s)) /\
    (~ runs_here st ts filt f job t -> ~ In (EBegin (addr t)) (trace s)) /\
    exists r, In r (er_runs er) /\ r_task r = t /\
      (runs_here st ts filt f job t -> r_status r = OK) /\
      (~ runs_here st ts filt f job t -> r_status r = SKIP).
Proof. exact incremental_exact. Qed.
Print Assumptions C62_answers_decide.

(** lib (2) is stale, so lib, app and test run and the others do not. *)
Definition job_demo (t : tid) : process := if t =? 2 then cc_b else cc_a.
Definition build_config (job : tid -> process) : config :=
  Config demo_dag 2 demo_tasks
    (fun n => process_checks (fun _ => "") fs_demo job (node_task demo_dag n)).
Definition build_demo : config := build_config job_demo.
Definition build_end : state := go build_demo (drive build_demo all_ok 60 (init 0)).
Lemma build_execution job :
  execution_of demo_store demo_set "" (process_checks (fun _ => "") fs_demo job) (fun t => t) (build_config job).
Proof.
  assert (Eb : exists k, insert_set dag0 demo_store demo_set "" (fun t => t) (fun l => l) (fun l => l) = Built (demo_dag, k))
    by (eexists; vm_compute; reflexivity).
  destruct Eb as [k Eb].
  exists 2, (fun l => l), (fun l => l).
  split; [intros l; apply Permutation_refl|]. split; [intros l; apply Permutation_refl|].
  split; [exact demo_ordered|]. split; [exact demo_owned|].
  split; [split; [auto|intros a _ []]|]. unfold exec_set. rewrite Eb. reflexivity.
Qed.
Example C62_case : exists er,
  execution_of demo_store demo_set "" (process_checks (fun _ => "") fs_demo job_demo) (fun t => t) build_demo /\
  (forall t, regular fs_demo (job_demo t)) /\ reachable build_demo 0 build_end /\ result build_end = RRecord er /\
  map (fun r => (r_task r, r_status r)) (er_runs er) = [(1, SKIP); (2, OK); (3, OK); (4, SKIP); (5, OK); (6, SKIP)] /\
  must_run demo_store demo_set "" fs_demo job_demo 5.
Proof.
  eexists. split; [apply build_execution|].
  split; [intros t; unfold job_demo; destruct (t =? 2); [exact regular_b|exact regular_a]|].
  split; [apply go_reachable; vm_compute; reflexivity|].
  split; [vm_compute; reflexivity|].
  split; [vm_compute; reflexivity|].
  exists 2. split; [|exact stale_b].
  apply rt_trans with 3; apply rt_step;
    (split; [apply selected_demo; cbn; auto 10|split; [apply selected_demo; cbn; auto|left; cbn; auto]]).
Qed.

(** A generator (task 4) without inputs: not run although its output is missing. *)
Definition job_gen (t : tid) : process := if t =? 4 then Process ["gen"] [] ["gone"] None else cc_a.
Definition gen_end : state := go (build_config job_gen) (drive (build_config job_gen) all_ok 60 (init 0)).
Theorem C62_refuted : exists f job st ts filt addr c z s er t,
  execution_of st ts filt (process_checks (fun _ => "") f job) addr c /\
  reachable c z s /\ result s = RRecord er /\ (forall r, In r (er_runs er) -> r_status r <> FAIL) /\
  selected st ts filt t /\ must_run st ts filt f job t /\ ~ In (EBegin (addr t)) (trace s).
Proof.
  exists fs_demo, job_gen, demo_store, demo_set, "", (fun t => t), (build_config job_gen), 0%Z, gen_end.
  eexists. exists 4. split; [apply build_execution|].
  split; [apply go_reachable; vm_compute; reflexivity|].
  split; [vm_compute; reflexivity|].
  split. { intros r Hr. cbn in Hr. repeat destruct Hr as [Hr|Hr]; try (subst r; discriminate). destruct Hr. }
  split; [apply selected_demo; cbn; auto 10|]. split.
  - exists 4. split; [apply rt_refl|]. right. right. left. exists "gone". cbn. auto.
  - intros H.
    assert (E : existsb (fun e => match e with EBegin n => n =? 4 | _ => false end) (trace gen_end) = false)
      by (vm_compute; reflexivity).
    rewrite <- Bool.not_true_iff_false in E. apply E. apply existsb_exists. eexists. split; [exact H|]. reflexivity.
Qed.
Print Assumptions C62_refuted.
