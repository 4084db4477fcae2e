(** Why an execution fails (C101). *)
From Verif Require Import Model.Common Model.Records Model.Jobs Model.TaskSet Model.Dag
     Model.Sched Model.Exec Spec.Graph.
Open Scope list_scope.

(** The call [l] makes the execution fail with the exception [e]; [ev] is the last thing
    the call did.  A cycle is reported to the visitor by the first tick; the job of [n]
    is asked whether it is invalidated by the first tick and throws; no thread can be
    started for the job of [n], which the visitor has just been told about; or the
    visitor's callback itself throws. *)
Definition cause (c : config) (l : label) (ev : event) (e : exc) : Prop :=
  match e with
  | ExcCycle => l = LTick /\ exists cyc, ev = ECycle cyc /\ is_cycle (c_dag c) cyc
  | ExcInval n => l = LTick /\ ev = EAsk n /\ In n (node_ids (c_dag c)) /\ c_inval c n = IvThrow
  | ExcLaunch n => l = LLaunchFail /\ (exists er, ev = EBeforeRun er n) /\
                   In n (node_ids (c_dag c)) /\ Invalidated c n
  | ExcVisitor => (exists k, l = LVisThrow k) /\ is_callback ev = true
  end.

(** A job thread does something. *)
Definition by_a_job (ev : event) : Prop :=
  match ev with EBegin _ | EEnd _ _ => True | _ => False end.

(** A history in which every thread can be started and no callback of the visitor throws. *)
Definition undisturbed (ls : list label) : Prop :=
  forall l, In l ls -> l <> LLaunchFail /\ forall k, l <> LVisThrow k.
