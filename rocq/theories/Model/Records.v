(** include/joque/run_result.hpp, include/joque/records.hpp, src/records.cpp *)
From Coq Require Import String.
From Verif Require Import Model.Common.
Open Scope string_scope.
Open Scope nat_scope.
Open Scope list_scope.

(** run_result.hpp:13-22 output_chunk *)
Inductive chunk_type := ERROR | STANDARD.
Record output_chunk := Chunk { ch_type : chunk_type; ch_data : string }.

(** run_result.hpp:32-40 run_result.  [retcode] has no default initialiser; see
    Model/Jobs.v for the places where it stays indeterminate. *)
Record run_result := RunResult {
  rr_retcode : Z;
  rr_output  : list output_chunk;
  rr_log     : string }.

(** run_result.hpp:49-62 insert, insert_std, insert_err: append a chunk. *)
Definition insert_chunk (r : run_result) (t : chunk_type) (d : string) : run_result :=
  {| rr_retcode := rr_retcode r; rr_output := rr_output r ++ [Chunk t d]; rr_log := rr_log r |}.
Definition insert_err (r : run_result) (d : string) := insert_chunk r ERROR d.
Definition insert_std (r : run_result) (d : string) := insert_chunk r STANDARD d.

(** records.hpp:18-24 *)
Inductive run_status := OK | SKIP | DEPF | FAIL.
Definition status_eqb (a b : run_status) : bool :=
  match a, b with
  | OK, OK | SKIP, SKIP | DEPF, DEPF | FAIL, FAIL => true
  | _, _ => false
  end.

(** records.cpp:11-24 to_sv(run_status) *)
Definition status_sv (s : run_status) : string :=
  match s with OK => "OK" | SKIP => "SKIP" | DEPF => "DEPF" | FAIL => "FAIL" end.

(** records.hpp:33-53 run_record.  [r_node] is a ghost: the graph node the record
    was made for (two nodes of a hand-built graph may refer to one task).  Times
    are clock ticks of system_clock, counted in the unit [r_start], [r_end] are in
    (nanoseconds; see [runtime_sum]). *)
Record run_record := RunRecord {
  r_node    : nid;
  r_task    : tid;
  r_name    : string;
  r_status  : run_status;
  r_retcode : Z;
  r_start   : Z;
  r_end     : Z;
  r_output  : list output_chunk }.

(** records.hpp:70-75 the std::map<run_status,size_t> with its four keys. *)
Record stats := Stats { st_ok : nat; st_skip : nat; st_depf : nat; st_fail : nat }.
Definition stats0 : stats := Stats 0 0 0 0.
Definition stat_get (s : stats) (k : run_status) : nat :=
  match k with OK => st_ok s | SKIP => st_skip s | DEPF => st_depf s | FAIL => st_fail s end.
Definition stat_incr (s : stats) (k : run_status) : stats :=
  match k with
  | OK   => Stats (S (st_ok s)) (st_skip s) (st_depf s) (st_fail s)
  | SKIP => Stats (st_ok s) (S (st_skip s)) (st_depf s) (st_fail s)
  | DEPF => Stats (st_ok s) (st_skip s) (S (st_depf s)) (st_fail s)
  | FAIL => Stats (st_ok s) (st_skip s) (st_depf s) (S (st_fail s))
  end.

(** records.hpp:68-80 exec_record *)
Record exec_record := ExecRecord {
  er_stats : stats;
  er_total : nat;
  er_runs  : list run_record }.
Definition erec0 : exec_record := ExecRecord stats0 0 [].

(** exec.cpp:31-35 push *)
Definition push (er : exec_record) (r : run_record) : exec_record :=
  ExecRecord (stat_incr (er_stats er) (r_status r)) (er_total er) (er_runs er ++ [r]).
