(** Vocabulary for what the default visitor writes besides its status lines (C81). *)
From Coq Require Import String Ascii.
From Verif Require Import Model.Common Model.Records Model.Jobs Model.TaskSet Model.Dag Model.Sched Model.Exec Model.Visitor
     Spec.Report.
Open Scope string_scope.
Open Scope nat_scope.
Open Scope list_scope.

Definition nl : string := String (ascii_of_nat 10) "".
Definition tab : string := String (ascii_of_nat 9) "".

(** The pieces written to stderr ([err]) or to stdout, in order. *)
Definition pieces (err : bool) (now : string) (out : list item) : list (option string) :=
  map (render now) (filter (fun i => Bool.eqb (on_stderr i) err) out).

(** The nodes announced so far, in order. *)
Definition announced (tr : list event) : list nid :=
  flat_map (fun e => match e with EEnque n => [n] | _ => [] end) tr.

(** The texts. *)
Definition no_job_text (c : config) (n : nid) : string :=
  ("Task " ++ node_name (c_dag c) n ++ " has no job" ++ nl)%string.
Definition cycle_text (c : config) (l : list nid) : string :=
  ("Cycle between nodes detected:" ++ nl ++ concat_text (map (fun n => tab ++ node_name (c_dag c) n ++ nl) l))%string.
Definition reason_text (c : config) (n : nid) (log : string) : string :=
  ("Job " ++ node_name (c_dag c) n ++ " got invalidated: " ++ nl ++ log ++ nl)%string.
Definition inherited_text (c : config) (n m : nid) : string :=
  ("Task " ++ node_name (c_dag c) n ++ " invalidated by " ++ node_name (c_dag c) m ++ nl)%string.
Definition run_log_text (c : config) (n : nid) (log : string) : string :=
  ("Job " ++ node_name (c_dag c) n ++ " run log: " ++ nl ++ log ++ nl)%string.

Definition without_job (c : config) : list nid :=
  filter (fun n => negb (node_has_job c n)) (node_ids (c_dag c)).

(** Messages on stdout that are not status lines or output of jobs. *)
Definition is_note (i : item) : bool :=
  match i with PInval _ _ | PDepInval _ _ | PRunLog _ _ => true | _ => false end.
Definition notes (now : string) (out : list item) : list (option string) :=
  map (render now) (filter is_note out).
(** The note due for an event when verbose. *)
Definition note_due (c : config) (e : event) : list string :=
  match e with
  | EInval n INVALID log => [reason_text c n log]
  | EDepInval n m => [inherited_text c n m]
  | ERunLog n log => [run_log_text c n log]
  | _ => []
  end.
