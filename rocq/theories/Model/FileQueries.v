(** src/process.cpp: the check of a process when file queries fail. *)
From Coq Require Import String.
From Verif Require Import Model.Common Model.Records Model.Jobs Model.Sched Model.Text Model.Process Model.JobTypes.
Open Scope string_scope.
Open Scope nat_scope.
Open Scope list_scope.

(** What the queries answer: [None] if std::filesystem::exists or last_write_time throws (no
    permission, too many links, ...).  [q_retcode]: the number read from a retcode file; an
    ifstream that cannot be opened or read does not throw.  Simplified: a query has the same
    answer each time it is asked during one check. *)
Record queries := Queries {
  q_exists  : path -> option bool;
  q_time    : path -> option Z;
  q_retcode : path -> Z }.

Definition qbind {A B} (x : option A) (k : A -> option B) : option B :=
  match x with Some a => k a | None => None end.

(** process.cpp:26-32 path_to_write_time *)
Definition q_write_time (q : queries) (p : path) : option Z :=
  qbind (q_exists q p) (fun b => if b then q_time q p else Some 0%Z).

(** std::ranges::min_element, max_element: the projection is applied to both elements of each
    comparison, and not at all if there is only one element. *)
Fixpoint q_min_element (proj : path -> option Z) (x : path) (l : list path) : option path :=
  match l with
  | [] => Some x
  | y :: r =>
      qbind (proj y) (fun a => qbind (proj x) (fun b =>
        if (a <? b)%Z then q_min_element proj y r else q_min_element proj x r))
  end.
Fixpoint q_max_element (proj : path -> option Z) (x : path) (l : list path) : option path :=
  match l with
  | [] => Some x
  | y :: r =>
      qbind (proj x) (fun a => qbind (proj y) (fun b =>
        if (a <? b)%Z then q_max_element proj y r else q_max_element proj x r))
  end.
(** std::ranges::all_of stops at the first element for which it does not hold. *)
Fixpoint q_all_exist (q : queries) (l : list path) : option bool :=
  match l with
  | [] => Some true
  | p :: r => qbind (q_exists q p) (fun b => if b then q_all_exist q r else Some false)
  end.

(** process.cpp:61-115 job_traits<process>::is_invalidated; [None]: throws. *)
Definition q_is_invalidated (fmt_time : Z -> string) (q : queries) (p : process) : option inval_result :=
  let tail :=
    match p_output p with
    | [] => Some (InvalResult true "no output")                                  (* 81-82 *)
    | o :: os =>
        match p_input p with
        | [] => qbind (q_all_exist q (o :: os)) (fun b =>
                  Some (InvalResult b "output existance"))                       (* 84-91 *)
        | i :: is =>
            qbind (q_min_element (q_write_time q) o os) (fun oldest =>           (* 93-94 *)
            qbind (q_exists q oldest) (fun b =>
            if negb b
            then Some (InvalResult true ("missing output: " ++ oldest))           (* 96-98 *)
            else
              qbind (q_max_element (q_write_time q) i is) (fun latest =>         (* 100-101 *)
              qbind (q_write_time q oldest) (fun ot =>
              qbind (q_write_time q latest) (fun it =>
              Some (InvalResult (ot <=? it)%Z
                ("oldest output " ++ oldest ++ " t: " ++ fmt_time ot ++ " " ++ newline ++
                 " latest input " ++ latest ++ " t: " ++ fmt_time it)))))))       (* 103-114 *)
        end
    end in
  match p_retcode p with
  | None => tail
  | Some rf =>                                                                    (* 63-79 *)
      qbind (q_exists q rf) (fun b =>
      if negb b then Some (InvalResult true ("no retcode file" ++ rf))
      else if (q_retcode q rf =? 0)%Z then tail
      else Some (InvalResult true ("last retcode is nonzero: " ++ dec_Z (q_retcode q rf) ++ " in " ++ rf)))
  end.

(** job.hpp:38-41 job<T>::is_invalidated, see JobTypes.v *)
Definition q_job_is_invalidated (fmt_time : Z -> string) (q : queries) (j : job) : inval_answer :=
  match match j with
        | JobCallable => Some traits_is_invalidated
        | JobProcess p => q_is_invalidated fmt_time q p
        end with
  | Some r => IvRet (iv_invalidated r) (iv_log r)
  | None => IvThrow
  end.
