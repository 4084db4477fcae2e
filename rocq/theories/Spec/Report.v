(** Vocabulary for the properties about reports and printed text. *)
From Coq Require Import String Ascii.
From Verif Require Import Model.Common Model.Records Model.TaskSet Model.Dag Model.Sched Model.Exec Model.Report Model.Visitor.
Open Scope string_scope.
Open Scope nat_scope.
Open Scope list_scope.

(** The lines of a text; a last line without a newline counts, nothing after a last
    newline does not. *)
Fixpoint lines_from (cur s : string) : list string :=
  match s with
  | EmptyString => match cur with EmptyString => [] | _ => [cur] end
  | String c r =>
      if Ascii.eqb c (ascii_of_nat 10) then cur :: lines_from "" r
      else lines_from (cur ++ String c "") r
  end.
Definition lines (s : string) : list string := lines_from "" s.
Fixpoint concat_text (l : list string) : string :=
  match l with [] => "" | s :: r => s ++ concat_text r end.

Fixpoint has_char (c : ascii) (s : string) : Prop :=
  match s with EmptyString => False | String a r => a = c \/ has_char c r end.

(** Without the codes for colours and the cursor: everything from an escape character to the
    next (small) letter. *)
Definition small_letter (c : ascii) : bool :=
  (97 <=? nat_of_ascii c) && (nat_of_ascii c <=? 122).
Fixpoint strip (in_code : bool) (s : string) : string :=
  match s with
  | EmptyString => EmptyString
  | String c r =>
      if in_code then strip (negb (small_letter c)) r
      else if Ascii.eqb c (ascii_of_nat 27) then strip true r
      else String c (strip false r)
  end.
Definition uncoloured (s : string) : string := strip false s.

Fixpoint blanks (n : nat) : string := match n with O => "" | S k => String " " (blanks k) end.

(** The number a string of decimal digits denotes. *)
Fixpoint value_from (acc : nat) (s : string) : option nat :=
  match s with
  | EmptyString => Some acc
  | String c r =>
      let n := nat_of_ascii c in
      if (48 <=? n) && (n <=? 57) then value_from (10 * acc + (n - 48)) r else None
  end.
Definition value (s : string) : option nat :=
  match s with EmptyString => None | _ => value_from 0 s end.

(** The number of decimal digits of [n] > 0 is [k]. *)
Definition has_digits (n k : nat) : Prop := 1 <= k /\ 10 ^ (k - 1) <= n < 10 ^ k.

(** Members of a JSON object. *)
Definition member (j : json) (k : string) (v : json) : Prop :=
  match j with JObj m => In (k, v) m | _ => False end.
Definition members (j : json) : list string := match j with JObj m => map fst m | _ => [] end.

(** What a run record contains apart from the reference to its task. *)
Definition contents (r : run_record) :=
  (r_name r, r_status r, r_retcode r, r_start r, r_end r, r_output r).

(** Names in a row, and lines that list names for each node of a graph. *)
Definition listed (names : list string) : string :=
  match names with [] => "" | _ => " " ++ String.concat ", " names ++ " " end%string.
Definition after_listing (names : dnode -> list string) (d : dag) : list string :=
  flat_map (fun x => [n_name x; "   -> runs after {" ++ listed (names x) ++ "}"]%string) (d_nodes d).

(** The records whose end lines, the outputs, and the names whose start lines are printed. *)
Definition end_lines (out : list item) : list run_record :=
  flat_map (fun i => match i with PEnd _ r => [r] | _ => [] end) out.
Definition outputs (out : list item) : list (list output_chunk) :=
  flat_map (fun i => match i with PNested o => [o] | _ => [] end) out.
Definition start_lines (out : list item) : list string :=
  flat_map (fun i => match i with PStart _ name => [name] | _ => [] end) out.

(** A line that starts with the time [now] and the counter count/total, where the total is
    printed between the colour codes [on] and [off]. *)
Definition shows_counter (now on off text : string) (count total : nat) : Prop :=
  exists a b rest, text = (now ++ "  " ++ a ++ "/" ++ on ++ b ++ off ++ rest)%string /\
                   value a = Some count /\ value b = Some total.

(** Is the task of node [n] shown? *)
Definition shown (c : config) (verbose : bool) (n : nid) : Prop :=
  exists x, lookup_node (d_nodes (c_dag c)) n = Some x /\
            (t_hidden (c_task c (n_task x)) = false \/ verbose = true).

(** [s] at the left / right end of a column of [w] characters. *)
Definition left_in (w : nat) (s : string) : string := s ++ blanks (w - String.length s).
Definition right_in (w : nat) (s : string) : string := blanks (w - String.length s) ++ s.
(** [t] is the number [n] with [w] digits, leading zeros included. *)
Definition number (w n : nat) (t : string) : Prop := value t = Some n /\ String.length t = w.
(** What is printed for a status. *)
Definition tag (s : run_status) : string :=
  match s with OK => "OK" | SKIP => "SKIP" | DEPF => "DEPF" | FAIL => "FAIL" end.
