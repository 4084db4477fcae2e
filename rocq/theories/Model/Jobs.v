(** What one run of a job can do, and the two exception wrappers around it. *)
From Coq Require Import String.
From Verif Require Import Model.Common Model.Records.
Open Scope string_scope.
Open Scope nat_scope.
Open Scope list_scope.

(** Outcome of [job_iface::run] (job.hpp:19): returns, throws something derived
    from std::exception, or throws something else. *)
Inductive job_outcome :=
| JRet (r : run_result)
| JThrowStd (what : string)
| JThrowOther.

(** Outcome of calling the user's callable (traits.hpp:23 [f( t )]). *)
Inductive call_outcome :=
| CRet (r : run_result)
| CThrowStd (what : string)
| CThrowOther.

(** traits.hpp:20-31 job_traits<T>::run (the default for callables).
    [indet] is the indeterminate value of [res.retcode]: line 26 declares
    [run_result res;], which leaves [int retcode] uninitialised, and no statement
    of the handler assigns it before [res] is returned. *)
Definition traits_run (indet : Z) (c : call_outcome) : job_outcome :=
  match c with
  | CRet r => JRet r
  | CThrowStd w =>
      JRet (insert_err (insert_err (RunResult indet [] "") "Uncaught exception:") w)
  | CThrowOther => JThrowOther
  end.

(** exec.cpp:136-155 the lambda given to std::async.  [res.retcode] is assigned
    in every handler, so its indeterminate start value is never read. *)
Definition run_lambda (o : job_outcome) : run_result :=
  match o with
  | JRet r => r
  | JThrowStd w =>
      insert_err (RunResult 1 [] "") ("job run failed due to exception: " ++ w)
  | JThrowOther =>
      insert_err (RunResult 1 [] "") "job run failed due to an unknown exception"
  end.
