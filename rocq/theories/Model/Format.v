(** src/records.cpp (runtime_sum), src/format.cpp, src/format_dag.cpp.
    Text is a string of bytes; [None] is undefined behaviour.  Simplified: std::format
    counts every byte as one column. *)
From Coq Require Import String Ascii.
From Verif Require Import Model.Common Model.Records Model.Dag Model.Text Model.Process Model.TaskSet
     Model.Sched Model.Exec.
Open Scope string_scope.
Open Scope nat_scope.
Open Scope list_scope.

(** * Durations.  Time points and durations are counted in nanoseconds. *)
Definition second : Z := 1000000000.
Definition millisecond : Z := 1000000.

(** std::chrono::ceil<seconds>: the cast truncates; one more if that is less. *)
Definition ceil_seconds (d : Z) : Z :=
  let t := Z.quot d second in if (t * second <? d)%Z then (t + 1)%Z else t.

(** records.cpp:26-38 runtime_sum.  With no runs both iterators are end(). *)
Definition runtime_sum (er : exec_record) : option Z :=
  match er_runs er with
  | [] => None
  | r :: rs =>
      let min := min_element r_start r rs in
      let max := max_element r_end r rs in
      Some (ceil_seconds (r_end max - r_start min))
  end.

(** * std::format paddings *)
Fixpoint repeat_char (c : ascii) (n : nat) : string :=
  match n with O => EmptyString | S k => String c (repeat_char c k) end.
(** "{:<w}" *)
Definition pad_right (w : nat) (s : string) : string :=
  s ++ repeat_char " " (w - String.length s).
(** "{:>w}", "{:0>w}" *)
Definition pad_left (c : ascii) (w : nat) (s : string) : string :=
  repeat_char c (w - String.length s) ++ s.

(** format.cpp:18-36 colours *)
Definition esc : ascii := ascii_of_nat 27.
Definition START : string := String esc "[38;5;33m".
Definition OK_c : string := String esc "[38;5;118m".
Definition FAIL_c : string := String esc "[38;5;196m".
Definition DEPF_c : string := String esc "[38;5;202m".
Definition SKIP_c : string := String esc "[38;5;226m".
Definition GRAY : string := String esc "[38;5;239m".
Definition END_c : string := String esc "[38;5;45m".
Definition RESET : string := String esc "[0m".
Definition GRAY_DELIM : string := String esc "[38;5;239m/" ++ String esc "[0m".
Definition stat_to_color (s : string) : option string :=
  if String.eqb s "OK" then Some OK_c else if String.eqb s "SKIP" then Some SKIP_c
  else if String.eqb s "DEPF" then Some DEPF_c else if String.eqb s "FAIL" then Some FAIL_c
  else if String.eqb s "STRT" then Some START else None.

(** floor( log10( n ) ) for n > 0. *)
Fixpoint log10_aux (fuel : nat) (n : N) : nat :=
  match fuel with
  | O => 0
  | S f => if (n <? 10)%N then 0 else S (log10_aux f (n / 10))
  end.
Definition log10 (n : nat) : nat := log10_aux (N.size_nat (N.of_nat n)) (N.of_nat n).

(** format.cpp:44-48 counter_width.  Simplified: log10 of a double is taken to be exact,
    which holds for totals below 10^15.  log10( 0 ) is minus infinity, and converting that
    to std::size_t is undefined. *)
Definition counter_width (max_count : nat) : option nat :=
  match max_count with O => None | _ => Some (log10 max_count + 1) end.

(** format.cpp:50-58 fmt_counter *)
Definition fmt_counter (count max_count : nat) : option string :=
  match counter_width max_count with
  | None => None
  | Some w => Some (pad_left "0" w (dec_nat count))
  end.

(** format.cpp:60-63 fmt_status *)
Definition fmt_status (stat color : string) : string := color ++ pad_left " " 4 stat ++ RESET.

(** std::string::find( c, from ), substr, replace( i, 1, r ) *)
Fixpoint find_char (c : ascii) (s : string) (from : nat) : option nat :=
  match s with
  | EmptyString => None
  | String a r =>
      match from with
      | O => if Ascii.eqb a c then Some 0 else option_map S (find_char c r 0)
      | S k => option_map S (find_char c r k)
      end
  end.
Fixpoint str_take (n : nat) (s : string) : string :=
  match n, s with
  | S k, String a r => String a (str_take k r)
  | _, _ => EmptyString
  end.
Fixpoint str_drop (n : nat) (s : string) : string :=
  match n, s with
  | S k, String a r => str_drop k r
  | _, _ => s
  end.
Definition replace1 (s : string) (i : nat) (r : string) : string :=
  str_take i s ++ r ++ str_drop (S i) s.

(** format.cpp:65-78 fmt_text.  [None]: the loop did not end within the bound; shown
    impossible. *)
Fixpoint gray_slashes (fuel : nat) (str : string) (index : nat) : option string :=
  match find_char "/" str index with
  | None => Some str
  | Some i =>
      match fuel with
      | O => None
      | S f => gray_slashes f (replace1 str i GRAY_DELIM) (i + String.length GRAY_DELIM)
      end
  end.
Definition fmt_text (text : string) : option string :=
  let str := pad_right 60 (str_take 60 text) in gray_slashes (String.length str) str 0.

(** format.cpp:80-83 fmt_dur on a duration already formatted ("12ms", "3s") *)
Definition fmt_dur (t : string) : string := "  " ++ GRAY ++ pad_left " " 8 t ++ RESET.

(** format.cpp:85-104 end_text.  std::map iterates in the order of the enumerators. *)
Definition end_text (er : exec_record) : string :=
  let st := er_stats er in
  fold_left (fun text k =>
      let count := stat_get st k in
      let color := match stat_to_color (status_sv k) with Some c => c | None => "" end in
      (text ++ "  " ++
       (if (0 <? count)%nat then "" else GRAY) ++ status_sv k ++ ": " ++
       (if (0 <? count)%nat then color else GRAY) ++ pad_right 5 (dec_nat count) ++ RESET)%string)
    [OK; SKIP; DEPF; FAIL]
    ("run: " ++ pad_right 9 (dec_nat (stat_get st OK + stat_get st FAIL)))%string.

Definition obind {A B} (x : option A) (f : A -> option B) : option B :=
  match x with Some a => f a | None => None end.

(** format.cpp:110-146 format_line.  [t] is fmt_time's text (38-42). *)
Definition format_line (t : string) (count : nat) (total : option nat) (status text : string)
           (dur : option string) : option string :=
  obind (match total with
         | Some tot =>
             obind (fmt_counter count tot) (fun a =>
             obind (fmt_counter tot tot) (fun b =>
             Some (a ++ "/" ++ GRAY ++ b ++ RESET)))%string
         | None =>
             obind (counter_width count) (fun w =>
             obind (fmt_counter count count) (fun a =>
             Some (repeat_char " " (w + 1) ++ a)))%string
         end)
    (fun counter =>
       Some (t ++ "  " ++ counter ++ "  " ++
             fmt_status status (match stat_to_color status with Some c => c | None => "" end) ++
             "  " ++ text ++ "  " ++ match dur with Some d => fmt_dur d | None => "" end)%string).

(** format.cpp:151-166 format_status *)
Definition format_status (t : string) (er : exec_record) (name : string) : option string :=
  obind (fmt_text name) (fun text =>
    format_line t (List.length (er_runs er) + 1) (Some (er_total er)) "STRT" text None).

(** format.cpp:168-186 format_nested: the loop over the characters of one chunk, then over
    the chunks; the state is (text written, prefix, last character). *)
Definition lf : ascii := ascii_of_nat 10.
Fixpoint nested_chars (indent s : string) (st : string * string * ascii) : string * string * ascii :=
  match s with
  | EmptyString => st
  | String c r =>
      let '(os, prefix, _) := st in
      nested_chars indent r
        ((os ++ prefix ++ String c "")%string, if Ascii.eqb c lf then indent else "", c)
  end.
Definition format_nested (indent : string) (output : list output_chunk) : string :=
  let '(os, _, lc) :=
    fold_left (fun st ch => nested_chars indent (ch_data ch) st) output ("", indent, lf) in
  if Ascii.eqb lc lf then os else (os ++ String lf "")%string.

(** format.cpp:188-209 format_run_end *)
Definition format_run_end (t : string) (er : exec_record) (r : run_record) : option string :=
  let dur := match r_status r with
             | OK | FAIL => Some (dec_Z (Z.quot (r_end r - r_start r) millisecond) ++ "ms")%string
             | _ => None
             end in
  obind (fmt_text (r_name r)) (fun text =>
    format_line t (List.length (er_runs er) + 1) (Some (er_total er)) (status_sv (r_status r)) text dur).

(** format.cpp:211-225 format_exec_end *)
Definition format_exec_end (t : string) (er : exec_record) : option string :=
  obind (runtime_sum er) (fun d =>
    format_line t (er_total er) None END_c (end_text er) (Some (dec_Z d ++ "s")%string)).

(** format_dag.cpp:17-28 join_names *)
Definition join_names (d : dag) (es : list edge) : string :=
  match es with
  | [] => ""
  | e :: r => fold_left (fun res e => res ++ ", " ++ node_name d (e_tgt e))%string r
                (" " ++ node_name d (e_tgt e))%string ++ " "
  end.

(** format_dag.cpp:31-40 format_dag: the lines given to [f] *)
Definition format_dag (d : dag) : list string :=
  flat_map (fun x => [n_name x; "   -> runs after {" ++ join_names d (out_edges d (n_id x)) ++ "}"]%string)
           (d_nodes d).

(** format_dag.cpp:42-47 print_dag *)
Definition print_dag (d : dag) : string :=
  fold_left (fun os sv => os ++ sv ++ String lf "")%string (format_dag d) "".
