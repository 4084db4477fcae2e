(** Files that change while a check looks at them: C74. *)
From Coq Require Import String Lia.
From Verif Require Import Model.Common Model.Records Model.Jobs Model.Sched Model.Text Model.Process Model.JobTypes
     Model.FileQueries Model.MovingFiles Spec.Files Proofs.MovingFacts.
Open Scope string_scope.
Open Scope nat_scope.
Open Scope list_scope.

(** * C74 A check that races with changes of the files *)

(** If nothing changes, the order in which files are looked at does not matter. *)
Theorem C74_fixed_files : forall fmt first qs q p k,
  (forall j, qs j = q) ->
  option_map fst (m_is_invalidated fmt first qs p k) = q_is_invalidated fmt q p.
Proof. intros fmt first qs q p k E. exact (fixed_files fmt first qs q E p k). Qed.
Print Assumptions C74_fixed_files.

(** If somebody edits the inputs during the check, the answer is between the one for the
    beginning and the one for the end: "up to date" only if it was when the check began, and
    "invalidated" only if it is when the check ends. *)
Theorem C74_inputs_edited : forall fmt first qs w p r k',
  answered_at qs w ->
  (forall o, In o (writes p) -> untouched w o) ->
  (forall i, In i (p_input p) -> only_newer w i) ->
  m_is_invalidated fmt first qs p 0 = Some (r, k') ->
  (iv_invalidated r = false -> iv_invalidated (is_invalidated fmt (w 0) p) = false) /\
  (iv_invalidated r = true -> iv_invalidated (is_invalidated fmt (w k') p) = true).
Proof. intros fmt first qs w p r k' A. exact (check_sandwich fmt first qs w A p r k'). Qed.
Print Assumptions C74_inputs_edited.

(** Whatever happens to the outputs, "up to date" means that at least one output was, at some
    moment, newer than all inputs were when the check began. *)
Theorem C74_outputs_changed : forall fmt first qs w p r k',
  answered_at qs w -> p_input p <> [] -> p_output p <> [] ->
  (forall i, In i (p_input p) -> only_newer w i) ->
  m_is_invalidated fmt first qs p 0 = Some (r, k') -> iv_invalidated r = false ->
  exists o j, In o (p_output p) /\ j < k' /\
    forall i, In i (p_input p) -> (path_to_write_time (w 0%nat) i < path_to_write_time (w j) o)%Z.
Proof. intros fmt first qs w p r k' A. exact (valid_some_output fmt first qs w A p r k'). Qed.
Print Assumptions C74_outputs_changed.

(** The check answers, unless a query fails or a file that existed is gone at the next query. *)
Theorem C74_answers : forall fmt first qs p k,
  (forall x j, In x (looks_at p) -> q_exists (qs j) x <> None /\
     (q_exists (qs j) x = Some true -> q_time (qs (S j)) x <> None)) ->
  m_is_invalidated fmt first qs p k <> None.
Proof. intros fmt first qs p k. exact (check_no_throw fmt first qs p k). Qed.
Print Assumptions C74_answers.

(** Queries that never fail. *)
Definition asking (w : nat -> fs) (k : nat) : queries :=
  Queries (fun p => Some (fs_exists (w k) p))
          (fun p => match w k p with Some x => Some (f_time x) | None => None end)
          (fun p => match w k p with Some x => read_retcode x | None => 0%Z end).
Lemma asking_at w : answered_at (asking w) w.
Proof.
  intros k p. split; [|split].
  - intros b E. injection E as <-. unfold fs_exists. destruct (w k p); split; congruence.
  - intros t E. cbn in E. destruct (w k p) as [x|]; [|discriminate]. exists x. split; congruence.
  - reflexivity.
Qed.

(** One input and two outputs; a file named x has the time [t k x], if it has one. *)
Definition link2 : process := Process ["ld"] ["in"] ["old"; "new"] None.
Definition moving (t : nat -> path -> option Z) (k : nat) : fs :=
  fun p => match t k p with Some z => Some (File z "" true) | None => None end.

(** The output "old" is older than the input all the time, and "new" is until it is written
    during the check. *)
Definition t_race (k : nat) (p : path) : option Z :=
  if String.eqb p "in" then Some 6%Z
  else if String.eqb p "old" then Some 5%Z
  else if String.eqb p "new" then Some (if k <? 4 then 3%Z else 10%Z)
  else None.

(** The answer need not fit any moment: even if files only get newer and none disappears, a
    process whose outputs are out of date from the beginning of the check to its end can be
    found up to date. *)
Theorem C74_some_moment_refuted :
  exists first qs w p r k',
    answered_at qs w /\ (forall x, only_newer w x) /\
    (forall k x, w k x <> None -> w (S k) x <> None) /\
    m_is_invalidated (fun _ => "") first qs p 0 = Some (r, k') /\
    iv_invalidated r = false /\
    forall k, iv_invalidated (is_invalidated (fun _ => "") (w k) p) = true.
Proof.
  exists (fun _ => true), (asking (moving t_race)), (moving t_race), link2. eexists. eexists.
  split; [apply asking_at|]. split; [|split; [|split; [vm_compute; reflexivity|split; [reflexivity|]]]].
  - intros x k. unfold path_to_write_time, moving, t_race. destruct (String.eqb x "in"); [cbn; lia|].
    destruct (String.eqb x "old"); [cbn; lia|]. destruct (String.eqb x "new"); [|cbn; lia].
    destruct (k <? 4) eqn:E1, (S k <? 4) eqn:E2; cbn [f_time]; try lia.
    apply Nat.ltb_ge in E1. apply Nat.ltb_lt in E2. lia.
  - intros k x. unfold moving, t_race. destruct (String.eqb x "in"); [discriminate|].
    destruct (String.eqb x "old"); [discriminate|]. destruct (String.eqb x "new"); [discriminate|easy].
  - intros k. unfold is_invalidated, moving, t_race. cbn. destruct k as [|[|[|[|k]]]]; reflexivity.
Qed.
Print Assumptions C74_some_moment_refuted.

(** The input is edited during the check: in time to be noticed, and too late. *)
Definition t_edit (m : nat) (k : nat) (p : path) : option Z :=
  if String.eqb p "in" then Some (if k <? m then 2%Z else 9%Z)
  else if String.eqb p "old" then Some 5%Z
  else if String.eqb p "new" then Some 7%Z
  else None.
Lemma edit_newer m x : only_newer (moving (t_edit m)) x.
Proof.
  intros k. unfold path_to_write_time, moving, t_edit. destruct (String.eqb x "in").
  - destruct (k <? m) eqn:E1, (S k <? m) eqn:E2; cbn [f_time]; try lia.
    apply Nat.ltb_ge in E1. apply Nat.ltb_lt in E2. lia.
  - destruct (String.eqb x "old"); [cbn; lia|]. destruct (String.eqb x "new"); cbn; lia.
Qed.
Example C74_case :
  (forall m, answered_at (asking (moving (t_edit m))) (moving (t_edit m))) /\
  (forall m o, In o (writes link2) -> untouched (moving (t_edit m)) o) /\
  (forall m i, In i (p_input link2) -> only_newer (moving (t_edit m)) i) /\
  (exists r, m_is_invalidated (fun _ => "") (fun _ => true) (asking (moving (t_edit 8))) link2 0 = Some (r, 9) /\
             iv_invalidated r = true) /\
  (exists r, m_is_invalidated (fun _ => "") (fun _ => false) (asking (moving (t_edit 9))) link2 0 = Some (r, 9) /\
             iv_invalidated r = false /\
             iv_invalidated (is_invalidated (fun _ => "") (moving (t_edit 9) 9) link2) = true) /\
  (forall m x j, In x (looks_at link2) -> q_exists (asking (moving (t_edit m)) j) x <> None /\
     (q_exists (asking (moving (t_edit m)) j) x = Some true -> q_time (asking (moving (t_edit m)) (S j)) x <> None)).
Proof.
  split; [intros m; apply asking_at|].
  split; [intros m o [<-|[<-|[]]] k; reflexivity|].
  split; [intros m i _; apply edit_newer|].
  split; [eexists; split; [vm_compute; reflexivity|reflexivity]|].
  split; [eexists; split; [vm_compute; reflexivity|split; reflexivity]|].
  intros m x j [<-|[<-|[<-|[]]]]; (split; [discriminate|]); cbn; discriminate.
Qed.

(** A file that disappears between the two queries about it makes the check throw. *)
Definition t_gone (k : nat) (p : path) : option Z :=
  if String.eqb p "in" then (if k <? 8 then Some 2%Z else None) else t_edit 9 k p.
Example C74_case_gone :
  m_is_invalidated (fun _ => "") (fun _ => true) (asking (moving t_gone)) link2 0 = None.
Proof. vm_compute. reflexivity. Qed.
