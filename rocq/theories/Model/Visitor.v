(** src/print_exec_visitor.cpp: the default visitor *)
From Coq Require Import String Ascii.
From Verif Require Import Model.Common Model.Records Model.TaskSet Model.Dag Model.Sched Model.Exec
     Model.Text Model.Process Model.Format.
Open Scope string_scope.
Open Scope nat_scope.
Open Scope list_scope.

(** What one callback writes, piece by piece. *)
Inductive item :=
| PNoJob (name : string)                               (* 31 *)
| PCycle (names : list string)                         (* 36-38 *)
| PInval (name log : string)                           (* 49-50 *)
| PDepInval (name by_name : string)                    (* 61-62 *)
| PRunLog (name log : string)                          (* 70-71 *)
| PStart (er : exec_record) (name : string)            (* 80-82, 107-109: format_status *)
| PEnd (er : exec_record) (r : run_record)             (* 97-98: format_run_end *)
| PNested (output : list output_chunk)                 (* 102: format_nested *)
| PExecEnd (er : exec_record).                         (* 120-122: format_exec_end *)

(** print_exec_visitor.cpp:15-19 impl; the set in ascending order of the addresses *)
Record vis := Vis { v_verbose : bool; v_queued : list nid }.

(** What the visitor reads of a node: name, task->hidden, task->job != nullptr. *)
Record vnode := VNode { vn_name : string; vn_hidden : bool; vn_job : bool }.

(** Reading a node that no longer exists is undefined. *)
Inductive vres := VOk (v : vis) (out : list item) | VDangling (n : nid).

Section Callbacks.
(** The nodes that exist, by address; the task a run record refers to. *)
Variable look : nid -> option vnode.
Variable tasks : tid -> task.

Definition with_node (n : nid) (f : vnode -> vres) : vres :=
  match look n with Some x => f x | None => VDangling n end.

(** The callbacks (28-124), by the event they are called for.  A null record pointer is
    never passed (Exec.v). *)
Definition visit (v : vis) (e : event) : vres :=
  match e with
  | EEnque n => with_node n (fun x => VOk v (if vn_job x then [] else [PNoJob (vn_name x)]))
  | ECycle ns =>
      VOk v [PCycle (map (fun n => match look n with Some x => vn_name x | None => "" end) ns)]
  | EInval n i log =>
      with_node n (fun x =>
        VOk v (if v_verbose v
               then match i with INVALID => [PInval (vn_name x) log] | _ => [] end else []))
  | EDepInval n m =>
      with_node n (fun x => with_node m (fun y =>
        VOk v (if v_verbose v then [PDepInval (vn_name x) (vn_name y)] else [])))
  | ERunLog n log =>
      with_node n (fun x => VOk v (if v_verbose v then [PRunLog (vn_name x) log] else []))
  | EBeforeRun er n =>
      with_node n (fun x =>
        if negb (vn_hidden x) || v_verbose v
        then VOk (Vis (v_verbose v) (set_insert n (v_queued v))) [PStart er (vn_name x)]
        else VOk v [])
  | EAfterRun er r n =>
      let out :=
        (if negb (t_hidden (tasks (r_task r))) || v_verbose v || negb (r_retcode r =? 0)%Z
         then [PEnd er r] else []) ++
        (if v_verbose v || negb (r_retcode r =? 0)%Z then [PNested (r_output r)] else []) in
      let q := set_erase n (v_queued v) in
      match q with
      | [] => VOk (Vis (v_verbose v) q) out
      | m :: _ => with_node m (fun y => VOk (Vis (v_verbose v) q) (out ++ [PStart er (vn_name y)]))
      end
  | EAfterExec er => VOk (Vis (v_verbose v) []) [PExecEnd er]
  | EOnTick _ | ELaunch _ | EBegin _ | EEnd _ _ | ETimeout _ | EDestroyed | EAsk _ => VOk v []
  end.

(** The visitor during a history. *)
Fixpoint watch (v : vis) (tr : list event) : vres :=
  match tr with
  | [] => VOk v []
  | e :: t =>
      match visit v e with
      | VDangling n => VDangling n
      | VOk v1 o1 =>
          match watch v1 t with
          | VDangling n => VDangling n
          | VOk v2 o2 => VOk v2 (o1 ++ o2)
          end
      end
  end.
End Callbacks.

(** The nodes of an execution. *)
Definition look_dag (c : config) (n : nid) : option vnode :=
  match lookup_node (d_nodes (c_dag c)) n with
  | Some x => Some (VNode (n_name x) (t_hidden (c_task c (n_task x))) (t_has_job (c_task c (n_task x))))
  | None => None
  end.
Definition watch_exec (c : config) (v : vis) (tr : list event) : vres :=
  watch (look_dag c) (c_task c) v tr.

(** The same visitor object (such as the global PRINT_VISITOR) used by one execution after
    the other, each destroyed before the next begins. *)
Fixpoint watch_all (v : vis) (es : list (config * list event)) : vres :=
  match es with
  | [] => VOk v []
  | (c, tr) :: r =>
      match watch_exec c v tr with
      | VDangling n => VDangling n
      | VOk v1 o1 =>
          match watch_all v1 r with
          | VDangling n => VDangling n
          | VOk v2 o2 => VOk v2 (o1 ++ o2)
          end
      end
  end.
Definition print_visitor (verbose : bool) : vis := Vis verbose [].

(** The text of an item; [now] is the formatted time. *)
Definition no_cursor : string := String esc "[?25l" ++ String (ascii_of_nat 13) (String esc "[?25h").
Definition render (now : string) (i : item) : option string :=
  match i with
  | PNoJob name => Some ("Task " ++ name ++ " has no job" ++ newline)%string
  | PCycle names =>
      Some (fold_left (fun os n => os ++ String (ascii_of_nat 9) n ++ newline)%string names
              ("Cycle between nodes detected:" ++ newline)%string)
  | PInval name log => Some ("Job " ++ name ++ " got invalidated: " ++ newline ++ log ++ newline)%string
  | PDepInval name by_name => Some ("Task " ++ name ++ " invalidated by " ++ by_name ++ newline)%string
  | PRunLog name log => Some ("Job " ++ name ++ " run log: " ++ newline ++ log ++ newline)%string
  | PStart er name => obind (format_status now er name) (fun s => Some (s ++ no_cursor)%string)
  | PEnd er r => obind (format_run_end now er r) (fun s => Some (s ++ newline)%string)
  | PNested out => Some (format_nested "        " out)
  | PExecEnd er => obind (format_exec_end now er) (fun s => Some (no_cursor ++ s ++ newline)%string)
  end.

(** Which items are written to std::cerr (31, 36-38); the others go to std::cout. *)
Definition on_stderr (i : item) : bool :=
  match i with PNoJob _ | PCycle _ => true | _ => false end.
