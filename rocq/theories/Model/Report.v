(** src/junit.cpp, src/json.cpp *)
From Coq Require Import String Ascii.
From Verif Require Import Model.Common Model.Records Model.Text Model.Process Model.Format.
Open Scope string_scope.
Open Scope nat_scope.
Open Scope list_scope.

(** junit.cpp:43-48 attr: the value is formatted with "{}" and put between quotes, as is. *)
Definition attr (name value : string) : string := name ++ "=""" ++ value ++ """".

(** junit.cpp:25-35 xml_node's constructor, 37-40 its destructor *)
Definition xml_open (name : string) (args : list string) : string :=
  fold_left (fun os a => os ++ " " ++ a)%string args ("<" ++ name)%string ++ ">" ++ newline.
Definition xml_close (name : string) : string := "</" ++ name ++ ">" ++ newline.

(** junit.cpp:81-94, one run.  [fmt_secs] formats a duration as a double, in seconds. *)
Definition junit_case (fmt_secs : Z -> string) (r : run_record) : string :=
  xml_open "testcase" [attr "name" (r_name r); attr "time" (fmt_secs (r_end r - r_start r)%Z)] ++
  (if (r_retcode r =? 0)%Z then "" else "<failure message=""task failed""/>" ++ newline) ++
  xml_close "testcase".

(** junit.cpp:60-95 generate_junit_xml; [now] is the formatted current time. *)
Definition generate_junit_xml (fmt_secs : Z -> string) (now ts_name : string) (er : exec_record)
  : option string :=
  obind (runtime_sum er) (fun t =>
    Some ("<?xml version=""1.0"" encoding=""UTF-8""?>" ++ newline ++
          xml_open "testsuite"
            [attr "name" ts_name; attr "tests" (dec_nat (List.length (er_runs er)));
             attr "failures" (dec_nat (stat_get (er_stats er) FAIL));
             attr "time" (dec_Z t ++ "s"); attr "timestamp" now] ++
          fold_left (fun os r => os ++ junit_case fmt_secs r)%string (er_runs er) "" ++
          xml_close "testsuite")%string).

(** nlohmann::json values, as far as used.  An object is a std::map: its members in the
    order of their keys. *)
Inductive json :=
| JNull
| JNum (z : Z)
| JStr (s : string)
| JArr (l : list json)
| JObj (m : list (string * json)).

(** j[key] = val on an object (or on null, which becomes an object) *)
Fixpoint obj_set (m : list (string * json)) (k : string) (v : json) : list (string * json) :=
  match m with
  | [] => [(k, v)]
  | (k', v') :: r =>
      match String.compare k k' with
      | Lt => (k, v) :: (k', v') :: r
      | Eq => (k, v) :: r
      | Gt => (k', v') :: obj_set r k v
      end
  end.
Definition json_set (j : json) (k : string) (v : json) : json :=
  match j with
  | JNull => JObj [(k, v)]
  | JObj m => JObj (obj_set m k v)
  | _ => j
  end.

(** Enumerations are converted to their values. *)
Definition chunk_type_num (t : chunk_type) : Z := match t with ERROR => 0 | STANDARD => 1 end.
Definition status_num (s : run_status) : Z :=
  match s with OK => 0 | SKIP => 1 | DEPF => 2 | FAIL => 3 end.

(** json.cpp:6-11 with run_result.hpp:24-28 *)
Definition json_chunk (c : output_chunk) : json :=
  json_set (json_set JNull "type" (JNum (chunk_type_num (ch_type c)))) "data" (JStr (ch_data c)).

(** json.cpp:13-24 with records.hpp:55-64; the task reference is left out.  [fmt_tp] is
    std::format( "{}", time point ). *)
Definition json_run (fmt_tp : Z -> string) (r : run_record) : json :=
  json_set (json_set (json_set (json_set (json_set (json_set JNull
    "name" (JStr (r_name r)))
    "status" (JNum (status_num (r_status r))))
    "retcode" (JNum (r_retcode r)))
    "start" (JStr (fmt_tp (r_start r))))
    "end" (JStr (fmt_tp (r_end r))))
    "output" (JArr (map json_chunk (r_output r))).

(** json.cpp:26-31 with records.hpp:84-90 *)
Definition json_exec (fmt_tp : Z -> string) (er : exec_record) : json :=
  let j := fold_left (fun j k => json_set j (status_sv k) (JNum (Z.of_nat (stat_get (er_stats er) k))))
                     [OK; SKIP; DEPF; FAIL] JNull in
  json_set (json_set j "total_count" (JNum (Z.of_nat (er_total er))))
           "runs" (JArr (map (json_run fmt_tp) (er_runs er))).
