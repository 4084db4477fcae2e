(** What a terminal shows of a text. *)
From Coq Require Import String Ascii.
From Verif Require Import Model.Common Model.Records Model.Text Model.Process Model.Format Model.Visitor Spec.Report.
Open Scope string_scope.
Open Scope nat_scope.
Open Scope list_scope.

(** A line of the screen is a row of characters, each in a colour: the usual one or one of
    the palette. *)
Inductive hue := Usual | Hue (n : nat).
Definition cell : Type := ascii * hue.

(** Characters are shown as they are, or they belong to a code: an escape character, [ and
    parameters up to a small letter. *)
Inductive reading := Plain | Escape | Code (params : string).

Record screen := Screen {
  above : list (list cell);   (* the lines above the cursor, first line first *)
  here : list cell;           (* the line of the cursor *)
  col : nat;                  (* the column of the cursor *)
  pen : hue;
  cursor : bool;              (* is the cursor shown? *)
  rd : reading }.

(** Codes: m sets the colour, l and h with ?25 hide and show the cursor. *)
Definition pick (params : string) (old : hue) : hue :=
  if String.eqb params "0" then Usual
  else if String.prefix "38;5;" params
  then match value (substring 5 (String.length params - 5) params) with Some n => Hue n | None => old end
  else old.
Definition obey (s : screen) (params : string) (letter : ascii) : screen :=
  Screen (above s) (here s) (col s)
         (if Ascii.eqb letter "m" then pick params (pen s) else pen s)
         (if String.eqb params "?25"
          then if Ascii.eqb letter "l" then false else if Ascii.eqb letter "h" then true else cursor s
          else cursor s)
         Plain.

(** A new line, back to the start of the line, or a character that replaces the one at the
    cursor.  The screen is wide enough for every line. *)
Definition feed (s : screen) (c : ascii) : screen :=
  match rd s with
  | Plain =>
      if Ascii.eqb c (ascii_of_nat 27) then Screen (above s) (here s) (col s) (pen s) (cursor s) Escape
      else if Ascii.eqb c (ascii_of_nat 10) then Screen (above s ++ [here s]) [] 0 (pen s) (cursor s) Plain
      else if Ascii.eqb c (ascii_of_nat 13) then Screen (above s) (here s) 0 (pen s) (cursor s) Plain
      else Screen (above s) (firstn (col s) (here s) ++ [(c, pen s)] ++ skipn (S (col s)) (here s))
                  (S (col s)) (pen s) (cursor s) Plain
  | Escape =>
      Screen (above s) (here s) (col s) (pen s) (cursor s) (if Ascii.eqb c "[" then Code "" else Plain)
  | Code params =>
      if small_letter c then obey s params c
      else Screen (above s) (here s) (col s) (pen s) (cursor s) (Code (params ++ String c ""))
  end.
Fixpoint show_text (s : screen) (text : string) : screen :=
  match text with EmptyString => s | String c r => show_text (feed s c) r end.

(** A screen with the given lines and the cursor, visible, at the start of a line. *)
Definition fresh (lines : list (list cell)) (line : list cell) : screen :=
  Screen lines line 0 Usual true Plain.

(** Characters that take one column each. *)
Fixpoint printable (s : string) : Prop :=
  match s with
  | EmptyString => True
  | String c r => 32 <= nat_of_ascii c <= 126 /\ printable r
  end.
Fixpoint printable_lines (s : string) : Prop :=
  match s with
  | EmptyString => True
  | String c r => (c = ascii_of_nat 10 \/ 32 <= nat_of_ascii c <= 126) /\ printable_lines r
  end.

(** * The lines of the default visitor *)
Definition grey : hue := Hue 239.
Definition hue_of (s : run_status) : hue :=
  Hue match s with OK => 118 | SKIP => 226 | DEPF => 202 | FAIL => 196 end.
Definition row (h : hue) (s : string) : list cell := map (fun c => (c, h)) (list_ascii_of_string s).
(** Slashes are grey. *)
Definition path_row (s : string) : list cell :=
  map (fun c => (c, if Ascii.eqb c "/" then grey else Usual)) (list_ascii_of_string s).
Fixpoint zeros (n : nat) : string := match n with O => "" | S k => String "0" (zeros k) end.

(** Time, number of the next record and of all tasks, status, name. *)
Definition front (time : string) (er : exec_record) (h : hue) (status name : string) : list cell :=
  let total := dec_nat (er_total er) in
  let next := dec_nat (S (List.length (er_runs er))) in
  row grey time ++ row Usual "  " ++
  row Usual (zeros (String.length total - String.length next) ++ next ++ "/") ++ row grey total ++ row Usual "  " ++
  row h (right_in 4 status) ++ row Usual "  " ++
  path_row (String.substring 0 60 (name ++ blanks 60)) ++ row Usual "  ".
Definition start_row (time : string) (er : exec_record) (name : string) : list cell :=
  front time er (Hue 33) "STRT" name.
Definition end_row (time : string) (er : exec_record) (r : run_record) : list cell :=
  front time er (hue_of (r_status r)) (tag (r_status r)) (r_name r) ++
  match r_status r with
  | OK | FAIL => row Usual "  " ++ row grey (right_in 8 (dec_Z (Z.quot (r_end r - r_start r) 1000000) ++ "ms"))
  | SKIP | DEPF => []
  end.

(** How many tasks ended with a status; grey when none did. *)
Definition stat_row (k : run_status) (n : nat) : list cell :=
  row Usual "  " ++ row (if n =? 0 then grey else Usual) (tag k ++ ": ") ++
  row (if n =? 0 then grey else hue_of k) (left_in 5 (dec_nat n)).
Definition summary_row (time : string) (er : exec_record) : list cell :=
  let total := dec_nat (er_total er) in
  let count := stat_get (er_stats er) in
  row grey time ++ row Usual ("  " ++ blanks (S (String.length total)) ++ total ++ "    ") ++
  row Usual ("run: " ++ left_in 9 (dec_nat (count OK + count FAIL))) ++
  stat_row OK (count OK) ++ stat_row SKIP (count SKIP) ++ stat_row DEPF (count DEPF) ++ stat_row FAIL (count FAIL) ++
  row Usual "    " ++
  row grey (right_in 8 (match runtime_sum er with Some secs => dec_Z secs | None => "" end ++ "s")).

(** The lines that stay on the screen of something printed at a time. *)
Definition stays (p : string * item) : list (list cell) :=
  match p with
  | (time, PEnd er r) => [end_row time er r]
  | (_, PNested output) =>
      map (fun l => row Usual ("        " ++ l)) (lines (concat_text (map ch_data output)))
  | (time, PExecEnd er) => [summary_row time er]
  | _ => []
  end.
(** Messages of the verbose mode, made of lines that can be printed. *)
Definition is_note (i : item) : Prop :=
  match i with PInval _ _ | PDepInval _ _ | PRunLog _ _ => True | _ => False end.
Definition note_printable (i : item) : Prop :=
  match i with
  | PInval a b | PDepInval a b | PRunLog a b => printable_lines a /\ printable_lines b
  | _ => True
  end.
(** The line at the cursor after everything printed. *)
Fixpoint at_cursor (l : list (string * item)) : list cell :=
  match l with
  | [] => []
  | [(time, PStart er name)] => start_row time er name
  | _ :: r => at_cursor r
  end.

(** What is printed on the standard output, each item at a time; the text is written there. *)
Definition on_stdout (out : list item) : list item := filter (fun i => negb (on_stderr i)) out.
Fixpoint printed (l : list (string * item)) : option string :=
  match l with
  | [] => Some ""
  | (time, i) :: r =>
      match render (GRAY ++ time ++ RESET) i, printed r with
      | Some a, Some b => Some (a ++ b)%string
      | _, _ => None
      end
  end.
