(** What a terminal shows of the default visitor: C85. *)
From Coq Require Import String Ascii Lia.
From Verif Require Import Model.Common Model.Records Model.Jobs Model.TaskSet Model.Dag Model.Sched Model.Exec Model.Text
     Model.Process Model.Format Model.Report Model.Visitor Spec.Graph Spec.Trace Spec.Report Spec.Screen
     Properties.Demo Proofs.DemoFacts Proofs.ScreenFacts.
Open Scope string_scope.
Open Scope nat_scope.
Open Scope list_scope.

(** * C85 The screen *)

(** At any time the screen shows, below what it showed before, exactly the end lines, the
    outputs of failed tasks and the summary, in the colours given in Spec/Screen.v; the line
    of the cursor shows the start line printed last, if nothing followed it.  Earlier start
    lines have left nothing.  The colour is the usual one and the cursor is visible. *)
Theorem C85_quiet : forall c z s v out l before,
  wf_dag (c_dag c) -> reachable c z s -> node_ids (c_dag c) <> [] ->
  (forall n, In n (node_ids (c_dag c)) -> printable (node_name (c_dag c) n)) ->
  (forall r, In r (records (trace s)) -> printable_lines (concat_text (map ch_data (r_output r)))) ->
  watch_exec c (print_visitor false) (trace s) = VOk v out ->
  map snd l = on_stdout out -> (forall time i, In (time, i) l -> printable time /\ String.length time = 6) ->
  exists text, printed l = Some text /\
    show_text (fresh before []) text = fresh (before ++ flat_map stays l) (at_cursor l).
Proof. exact quiet_screen. Qed.
Print Assumptions C85_quiet.

(** In verbose mode there are messages between; all other lines are shown as above. *)
Theorem C85_verbose : forall c z s verbose v out l before,
  wf_dag (c_dag c) -> reachable c z s -> node_ids (c_dag c) <> [] ->
  (forall n, In n (node_ids (c_dag c)) -> printable (node_name (c_dag c) n)) ->
  (forall r, In r (records (trace s)) -> printable_lines (concat_text (map ch_data (r_output r)))) ->
  watch_exec c (print_visitor verbose) (trace s) = VOk v out -> Forall note_printable out ->
  map snd l = on_stdout out -> (forall time i, In (time, i) l -> printable time /\ String.length time = 6) ->
  exists text rows, printed l = Some text /\
    Forall2 (fun p r => is_note (snd p) \/ r = stays p) l rows /\
    show_text (fresh before []) text = fresh (before ++ concat rows) (at_cursor l).
Proof. exact screen_shows. Qed.
Print Assumptions C85_verbose.

(** After the execution the last line is the summary, and the cursor is at the start of the
    empty line below. *)
Theorem C85_final : forall c z s verbose v out l before er,
  wf_dag (c_dag c) -> reachable c z s -> node_ids (c_dag c) <> [] ->
  (forall n, In n (node_ids (c_dag c)) -> printable (node_name (c_dag c) n)) ->
  (forall r, In r (records (trace s)) -> printable_lines (concat_text (map ch_data (r_output r)))) ->
  watch_exec c (print_visitor verbose) (trace s) = VOk v out -> Forall note_printable out ->
  map snd l = on_stdout out -> (forall time i, In (time, i) l -> printable time /\ String.length time = 6) ->
  result s = RRecord er ->
  exists text time rows, printed l = Some text /\ In (time, PExecEnd er) l /\
    show_text (fresh before []) text = fresh (before ++ rows ++ [summary_row time er]) [].
Proof. exact final_screen. Qed.
Print Assumptions C85_final.

Definition at_ten (out : list item) : list (string * item) := map (fun i => ("101112", i)) (on_stdout out).
Definition rows_of (s : screen) : list string := map (fun r => string_of_list_ascii (map fst r)) (above s).

(** The messages themselves may be followed by the remains of a start line: here the log of
    //src/lib is announced over the line that said it was started. *)
Theorem C85_remains : exists v out text,
  wf_dag (c_dag (demo 2)) /\ reachable (demo 2) 0 (demo_end 2 lib_fails) /\
  watch_exec (demo 2) (print_visitor true) (trace (demo_end 2 lib_fails)) = VOk v out /\
  In (PRunLog "//src/lib" "") out /\ printed (at_ten out) = Some text /\
  In ("Job //src/lib run log: c/lib" ++ blanks 53)%string (rows_of (show_text (fresh [] []) text)).
Proof.
  do 3 eexists. split; [exact wf_demo|]. split; [exact reach_demo_fail|]. split; [vm_compute; reflexivity|].
  split; [do 10 right; left; reflexivity|]. split; [vm_compute; reflexivity|].
  vm_compute. do 11 right. left. reflexivity.
Qed.
Print Assumptions C85_remains.

Example C85_case : exists v out er text,
  wf_dag (c_dag (demo 2)) /\ reachable (demo 2) 0 (demo_end 2 lib_fails) /\ node_ids (c_dag (demo 2)) <> [] /\
  (forall n, In n (node_ids (c_dag (demo 2))) -> printable (node_name (c_dag (demo 2)) n)) /\
  (forall r, In r (records (trace (demo_end 2 lib_fails))) -> printable_lines (concat_text (map ch_data (r_output r)))) /\
  watch_exec (demo 2) (print_visitor false) (trace (demo_end 2 lib_fails)) = VOk v out /\ Forall note_printable out /\
  map snd (at_ten out) = on_stdout out /\
  (forall time i, In (time, i) (at_ten out) -> printable time /\ String.length time = 6) /\
  result (demo_end 2 lib_fails) = RRecord er /\ printed (at_ten out) = Some text /\
  rows_of (show_text (fresh [] []) text) =
  ["101112  1/6    OK  //gen" ++ blanks 64 ++ "0ms";
   "101112  2/6  FAIL  //src/lib" ++ blanks 60 ++ "0ms";
   "        boom";
   "101112  3/6  DEPF  //app" ++ blanks 57;
   "101112  4/6  SKIP  //doc" ++ blanks 57;
   "101112  5/6  DEPF  //src/test" ++ blanks 52;
   "101112  6/6    OK  //src/lint" ++ blanks 59 ++ "0ms";
   "101112    6    run: 3          OK: 2      SKIP: 1      DEPF: 2      FAIL: 1              0s"]%string.
Proof.
  do 4 eexists. split; [exact wf_demo|]. split; [exact reach_demo_fail|]. split; [vm_compute; discriminate|].
  split; [intros n H; vm_compute in H; decompose [or] H; subst; try contradiction; vm_compute; lia|].
  split; [intros r H; vm_compute in H; decompose [or] H; subst; try contradiction; vm_compute; intuition lia|].
  split; [vm_compute; reflexivity|]. split; [repeat constructor|]. split; [reflexivity|].
  split.
  { intros time i H. apply in_map_iff in H. destruct H as (x & E & _). injection E as <- _. split; [vm_compute; lia|reflexivity]. }
  split; [vm_compute; reflexivity|]. split; [vm_compute; reflexivity|]. vm_compute. reflexivity.
Qed.

(** Half way the line of the cursor tells which task was started last. *)
Example C85_case_running : exists v out text,
  reachable (demo 2) 0 demo_busy /\ watch_exec (demo 2) (print_visitor false) (trace demo_busy) = VOk v out /\
  printed (at_ten out) = Some text /\
  let s := show_text (fresh [] []) text in
  rows_of s = [] /\
  string_of_list_ascii (map fst (here s)) = ("101112  1/6  STRT  //src/lint" ++ blanks 52)%string /\ at_cursor (at_ten out) = here s.
Proof.
  do 3 eexists. split; [apply go_reachable; vm_compute; reflexivity|]. split; [vm_compute; reflexivity|]. split; [vm_compute; reflexivity|].
  cbn zeta. split; [vm_compute; reflexivity|]. split; vm_compute; reflexivity.
Qed.
