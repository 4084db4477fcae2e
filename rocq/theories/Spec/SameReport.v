(** When two reports of the same work say the same, times and order aside. *)
From Coq Require Import String List Permutation.
From Verif Require Import Model.Records Model.Report Spec.Xml Spec.Report.
Import ListNotations.
Open Scope string_scope.

(** The same items in another order, each related to its counterpart by [R]. *)
Definition same_in_some_order {A} (R : A -> A -> Prop) (l1 l2 : list A) : Prop :=
  exists l, Permutation l1 l /\ Forall2 R l l2.

(** Two records of one task that differ at most in when it started and ended. *)
Definition same_run (a b : run_record) : Prop :=
  r_task a = r_task b /\ r_name a = r_name b /\ r_status a = r_status b /\
  r_retcode a = r_retcode b /\ r_output a = r_output b.

(** Two records of an execution. *)
Definition same_exec_record (a b : exec_record) : Prop :=
  er_stats a = er_stats b /\ er_total a = er_total b /\ same_in_some_order same_run (er_runs a) (er_runs b).

(** Two XML elements that differ at most in the value of the attribute "time". *)
Definition without_time (l : list (string * string)) : list (string * string) :=
  filter (fun a => negb (String.eqb (fst a) "time")) l.
Definition same_case (a b : xml) : Prop :=
  el_name a = el_name b /\ without_time (el_attrs a) = without_time (el_attrs b) /\
  el_children a = el_children b.

(** Two test suites that differ at most in the attributes "time" and "timestamp" and in the
    order of their test cases. *)
Definition same_suite (a b : xml) : Prop :=
  el_name a = el_name b /\
  filter (fun p => negb (String.eqb (fst p) "timestamp")) (without_time (el_attrs a)) =
  filter (fun p => negb (String.eqb (fst p) "timestamp")) (without_time (el_attrs b)) /\
  same_in_some_order same_case (el_children a) (el_children b).

(** Two JSON objects that differ at most in the members "start" and "end". *)
Definition same_json_run (a b : json) : Prop :=
  members a = members b /\
  forall k v, k <> "start" -> k <> "end" -> (member a k v <-> member b k v).

(** Two JSON reports: every member but "runs" is the same, and "runs" lists the same runs in
    some order. *)
Definition same_json_report (a b : json) : Prop :=
  members a = members b /\
  (forall k v, k <> "runs" -> (member a k v <-> member b k v)) /\
  exists ra rb, member a "runs" (JArr ra) /\ member b "runs" (JArr rb) /\
    same_in_some_order same_json_run ra rb.
