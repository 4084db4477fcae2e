(** include/joque/process.hpp, src/process.cpp *)
From Coq Require Import String Ascii.
From Verif Require Import Model.Common Model.Records Model.Jobs Model.Text.
Open Scope string_scope.
Open Scope nat_scope.
Open Scope list_scope.

(** std::filesystem::path, by its native string. *)
Definition path := string.

(** The file system, as far as this code looks at it: modification time, content, and
    whether the file can be opened for reading.  Times count ticks of file_clock from its
    epoch, so they may be negative (the epoch of libstdc++'s file_clock is the year 2174).
    Simplified: [exists] and [last_write_time] do not fail, see FileQueries.v. *)
Record file := File { f_time : Z; f_content : string; f_readable : bool }.
Definition fs := path -> option file.
Definition fs_exists (f : fs) (p : path) : bool := match f p with Some _ => true | None => false end.
Definition fs_set (f : fs) (p : path) (x : option file) : fs :=
  fun q => if String.eqb q p then x else f q.

(** process.hpp:24-36 struct process *)
Record process := Process {
  p_cmd     : list string;
  p_input   : list path;
  p_output  : list path;
  p_retcode : option path }.

(** What [inval_result] (run_result.hpp:42-47) holds. *)
Record inval_result := InvalResult { iv_invalidated : bool; iv_log : string }.

(** process.cpp:26-32 path_to_write_time; [file_time_type{}] is the epoch, 0. *)
Definition path_to_write_time (f : fs) (p : path) : Z :=
  match f p with Some x => f_time x | None => 0%Z end.

(** std::ranges::min_element / max_element on a non-empty range [x :: l], with a
    projection: the first smallest / first largest element. *)
Fixpoint min_element {A} (proj : A -> Z) (x : A) (l : list A) : A :=
  match l with
  | [] => x
  | y :: r => if (proj y <? proj x)%Z then min_element proj y r else min_element proj x r
  end.
Fixpoint max_element {A} (proj : A -> Z) (x : A) (l : list A) : A :=
  match l with
  | [] => x
  | y :: r => if (proj x <? proj y)%Z then max_element proj y r else max_element proj x r
  end.

(** process.cpp:34-42 format_cmd.  std::regex_replace( arg, " ", "\\ " ) puts a backslash
    in front of every space ("\" is not special in an ECMAScript replacement). *)
Fixpoint escape_spaces (s : string) : string :=
  match s with
  | EmptyString => EmptyString
  | String a r => if Ascii.eqb a " " then String "\" (String " " (escape_spaces r))
                  else String a (escape_spaces r)
  end.
Definition newline : string := String (ascii_of_nat 10) EmptyString.
Definition format_cmd (cmd : list string) : string :=
  fold_left (fun line arg => line ++ escape_spaces arg ++ " ")%string cmd "" ++ newline.

(** process.cpp:69-71: the number read from the retcode file; 0 if it cannot be opened. *)
Definition read_retcode (x : file) : Z :=
  if f_readable x then read_int (f_content x) else 0%Z.

(** process.cpp:61-115 job_traits<process>::is_invalidated.  [fmt_time] is how std::format
    prints a file time. *)
Definition is_invalidated (fmt_time : Z -> string) (f : fs) (p : process) : inval_result :=
  let tail :=
    match p_output p with
    | [] => InvalResult true "no output"                                       (* 81-82 *)
    | o :: os =>
        match p_input p with
        | [] => InvalResult (forallb (fs_exists f) (o :: os)) "output existance" (* 84-91 *)
        | i :: is =>
            let oldest := min_element (path_to_write_time f) o os in           (* 93-94 *)
            if negb (fs_exists f oldest)
            then InvalResult true ("missing output: " ++ oldest)                (* 96-98 *)
            else
              let latest := max_element (path_to_write_time f) i is in         (* 100-101 *)
              let ot := path_to_write_time f oldest in
              let it := path_to_write_time f latest in
              InvalResult (ot <=? it)%Z
                ("oldest output " ++ oldest ++ " t: " ++ fmt_time ot ++ " " ++ newline ++
                 " latest input " ++ latest ++ " t: " ++ fmt_time it)           (* 106-114 *)
        end
    end in
  match p_retcode p with
  | None => tail
  | Some rf =>                                                                  (* 63-79 *)
      match f rf with
      | None => InvalResult true ("no retcode file" ++ rf)
      | Some x =>
          let last_retcode := read_retcode x in
          if (last_retcode =? 0)%Z then tail
          else InvalResult true ("last retcode is nonzero: " ++ dec_Z last_retcode ++ " in " ++ rf)
      end
  end.

(** A std::error_code: its value, whether it equals no_such_file_or_directory, message.  The
    error_code is an error exactly if the value is not 0. *)
Record error_code := ErrorCode { ec_value : Z; ec_not_found : bool; ec_message : string }.
Definition ec_set (e : error_code) : bool := negb (ec_value e =? 0)%Z.

(** What happens when the program is run: the answer of reproc's start, the pieces of
    output drain hands over (true: standard output) and its answer, the answer of wait; the
    file system when wait returns; whether std::filesystem::remove throws; whether the
    retcode file can then be created; and the time. *)
Record sub := Sub {
  sb_start  : error_code;
  sb_chunks : list (bool * string);
  sb_drain  : error_code;
  sb_exit   : Z * error_code;
  sb_fs     : fs;
  sb_remove_throws : option string;
  sb_can_create : bool;
  sb_now    : Z }.

(** process.cpp:117-176 job_traits<process>::run, and the file system afterwards.  [f0] is
    the file system before.  Simplified: when start fails, the program has changed nothing;
    an ofstream that cannot be opened, or written completely, leaves nothing / all. *)
Definition process_run (p : process) (e : sub) (f0 : fs) : job_outcome * fs :=
  let log := ("cmd: " ++ format_cmd (p_cmd p))%string in
  if ec_set (sb_start e) then
    let r := RunResult (ec_value (sb_start e)) [] log in
    (JRet (insert_err r (if ec_not_found (sb_start e)
                         then "Program not found. Make sure it's available from the PATH." ++ newline
                         else ec_message (sb_start e))%string), f0)
  else
    let r := fold_left (fun r (c : bool * string) => insert_chunk r (if fst c then STANDARD else ERROR) (snd c))
                       (sb_chunks e) (RunResult 0 [] log) in
    if ec_set (sb_drain e) then
      let r := insert_err r (ec_message (sb_drain e)) in
      (JRet (RunResult (ec_value (sb_drain e)) (rr_output r) (rr_log r)), sb_fs e)
    else
      let '(code, ec) := sb_exit e in
      if ec_set ec then
        let r := insert_err r (ec_message ec) in
        (JRet (RunResult (ec_value ec) (rr_output r) (rr_log r)), sb_fs e)
      else
        let out := if (code =? 0)%Z then rr_output r
                   else Chunk STANDARD ("cmd: " ++ format_cmd (p_cmd p)) :: rr_output r in
        let res := RunResult code out log in
        match p_retcode p with
        | None => (JRet res, sb_fs e)
        | Some rf =>
            match sb_remove_throws e with
            | Some what => (JThrowStd what, sb_fs e)
            | None =>
                let f1 := fs_set (sb_fs e) rf None in
                (JRet res,
                 if sb_can_create e then fs_set f1 rf (Some (File (sb_now e) (dec_Z code) true)) else f1)
            end
        end.

(** process.hpp:72-94 process::derive: an argument is an [out], a std::filesystem::path, or
    something else convertible to a string. *)
Inductive darg := DStr (s : string) | DPath (p : path) | DOut (p : path).
Definition derive_arg (res : process) (a : darg) : process :=
  match a with
  | DOut p => Process (p_cmd res ++ [p]) (p_input res) (p_output res ++ [p]) (p_retcode res)
  | DPath p => Process (p_cmd res ++ [p]) (p_input res ++ [p]) (p_output res) (p_retcode res)
  | DStr s => Process (p_cmd res ++ [s]) (p_input res) (p_output res) (p_retcode res)
  end.
Definition derive (args : list darg) : process :=
  fold_left derive_arg args (Process [] [] [] None).

(** process.cpp:45-59 add_output, add_input, set_retcode_file *)
Definition add_output (res : process) (p : path) : process :=
  Process (p_cmd res) (p_input res) (p_output res ++ [p]) (p_retcode res).
Definition add_input (res : process) (p : path) : process :=
  Process (p_cmd res) (p_input res ++ [p]) (p_output res) (p_retcode res).
Definition set_retcode_file (res : process) (p : path) : process :=
  Process (p_cmd res) (p_input res) (p_output res) (Some p).
