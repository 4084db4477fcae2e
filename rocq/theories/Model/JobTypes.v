(** include/joque/job.hpp, traits.hpp: the job types of the library behind [job_iface]. *)
From Coq Require Import String.
From Verif Require Import Model.Common Model.Records Model.Jobs Model.TaskSet Model.Dag Model.Sched Model.Text Model.Process.
Open Scope string_scope.
Open Scope nat_scope.
Open Scope list_scope.

(** traits.hpp:15-18 job_traits<T>::is_invalidated (the default for callables) *)
Definition traits_is_invalidated : inval_result := InvalResult true "always invalidated".

(** job.hpp:28-48 struct job<T>, for a callable [T] that has no job_traits of its own and
    for [T] = process.  (A type with job_traits of its own can answer anything: those are
    the arbitrary [iv] of [ExecSet.exec_set].) *)
Inductive job := JobCallable | JobProcess (p : process).

(** job.hpp:38-41 job<T>::is_invalidated.  [IvThrow] does not occur: see
    FileQueries.v for checks that throw. *)
Definition job_is_invalidated (fmt_time : Z -> string) (f : fs) (j : job) : inval_answer :=
  let r := match j with
           | JobCallable => traits_is_invalidated
           | JobProcess p => is_invalidated fmt_time f p
           end in
  IvRet (iv_invalidated r) (iv_log r).

(** job.hpp:43-46 job<T>::run: what the callable does, or what happens when the process is
    run; with the file system afterwards ([f1]: what the callable leaves). *)
Definition job_run (indet : Z) (call : call_outcome) (f1 : fs) (e : sub) (f0 : fs) (j : job) : job_outcome * fs :=
  match j with
  | JobCallable => (traits_run indet call, f1)
  | JobProcess p => process_run p e f0
  end.
