(** The unit tests of the repository (test/*.cpp), replayed in the model.  They are no proofs
    of properties: they check the model against the expectations the authors wrote down, and
    that pass for the code. *)
From Coq Require Import String.
From Verif Require Import Model.Common Model.Records Model.Jobs Model.TaskSet Model.Dag
     Model.Sched Model.Exec Model.ExecSet Model.Text Model.Process Model.JobTypes Model.Format Model.Heap
     Spec.Trace Properties.Demo.
Open Scope string_scope.
Open Scope nat_scope.
Open Scope list_scope.

(** [exec( ts, threads, filter ).run()], where the job of task [t] ends with retcode [code t]. *)
Definition same {A} (l : list A) : list A := l.
Definition utest_config (threads : nat) (filt : string) (st : store) (ts : task_set)
           (iv : tid -> inval_answer) : config :=
  match exec_set st ts threads filt iv (fun t => t) same same with
  | Built c => c
  | _ => Config dag0 0 (st_get st) (fun _ => IvThrow)
  end.
Definition utest (threads : nat) (filt : string) (st : store) (ts : task_set)
           (iv : tid -> inval_answer) (code : tid -> Z) : state :=
  let c := utest_config threads filt st ts iv in
  go c (drive c (fun n => JRet (RunResult (code n) [] "")) 1000 (init 0)).
(** The tasks whose jobs were executed, in the order they began, and the result. *)
Definition executed (s : state) : list tid :=
  flat_map (fun e => match e with EBegin n => [n] | _ => [] end) (trace s).
Definition callable (_ : tid) : inval_answer :=
  IvRet (iv_invalidated traits_is_invalidated) (iv_log traits_is_invalidated).
Definition exits (code : Z) (_ : tid) : Z := code.
Definition finished (s : state) : bool := match result s with RRecord _ => true | _ => false end.
Definition plain (deps after : list tid) : task := Task true deps after [] [] false.

(** [std::set] of the executed tasks *)
Definition executed_set (s : state) : list tid := fold_left (fun l n => set_insert n l) (executed s) [].

(** basic_utest.cpp:42-67 TEST( joque, basic ): ten tasks; each is executed once, with 0 and
    with 4 threads.  Task i is my_test_i. *)
Definition basic_store : store := Store (seq 0 10) (fun _ => plain [] []).
Definition basic_set : task_set :=
  TaskSet [("my_test_0", 0); ("my_test_1", 1); ("my_test_2", 2); ("my_test_3", 3); ("my_test_4", 4);
           ("my_test_5", 5); ("my_test_6", 6); ("my_test_7", 7); ("my_test_8", 8); ("my_test_9", 9)] [].
Example basic : forall threads, In threads [0; 4] ->
  let s := utest threads "" basic_store basic_set callable (exits 0) in
  finished s = true /\ List.length (executed s) = 10 /\ executed_set s = seq 0 10.
Proof. intros k [<-|[<-|[]]]; vm_compute; auto. Qed.

(** basic_utest.cpp:69-105 TEST( joque, dep ): my_test is task 0, my_test_i_a and my_test_i_b
    are 2i+1 and 2i+2, both depend on the previous _b. *)
Definition dep_task (t : tid) : task :=
  match t with 0 => plain [] [] | S k => plain [2 * Nat.div k 2] [] end.
Definition dep_store : store := Store (seq 0 21) dep_task.
Definition dep_set : task_set :=
  TaskSet [("my_test", 0); ("my_test_0_a", 1); ("my_test_0_b", 2); ("my_test_1_a", 3); ("my_test_1_b", 4);
           ("my_test_2_a", 5); ("my_test_2_b", 6); ("my_test_3_a", 7); ("my_test_3_b", 8);
           ("my_test_4_a", 9); ("my_test_4_b", 10); ("my_test_5_a", 11); ("my_test_5_b", 12);
           ("my_test_6_a", 13); ("my_test_6_b", 14); ("my_test_7_a", 15); ("my_test_7_b", 16);
           ("my_test_8_a", 17); ("my_test_8_b", 18); ("my_test_9_a", 19); ("my_test_9_b", 20)] [].
(** EXPECT_TRUE( finished.contains( &dep ) ) at the beginning of each job *)
Fixpoint deps_finished (st : store) (fin : list tid) (es : list event) : bool :=
  match es with
  | [] => true
  | EBegin n :: r => forallb (fun d => mem d fin) (t_depends_on (st_get st n)) && deps_finished st fin r
  | EEnd n _ :: r => deps_finished st (n :: fin) r
  | _ :: r => deps_finished st fin r
  end.
Example dep : forall threads, In threads [0; 4] ->
  let s := utest threads "" dep_store dep_set callable (exits 0) in
  finished s = true /\ executed_set s = seq 0 21 /\ deps_finished dep_store [] (trace s) = true.
Proof. intros k [<-|[<-|[]]]; vm_compute; auto. Qed.

(** basic_utest.cpp:107-129 TEST( joque, depf ): c depends on b, b on a; all jobs return 1. *)
Definition depf_store : store :=
  Store [1; 2; 3] (fun t => match t with 2 => plain [1] [] | 3 => plain [2] [] | _ => plain [] [] end).
Example depf : forall threads, In threads [0; 4] ->
  let s := utest threads "" depf_store (TaskSet [("a", 1); ("b", 2); ("c", 3)] []) callable (exits 1) in
  finished s = true /\ List.length (executed s) = 1.
Proof. intros k [<-|[<-|[]]]; vm_compute; auto. Qed.

(** basic_utest.cpp:131-164 TEST( joque, filter ): the unwanted task (9) is not executed,
    though the others are to run after it. *)
Definition filter_store : store :=
  Store [0; 1; 9] (fun t => match t with 9 => plain [] [] | _ => plain [] [9] end).
Example filter : forall threads, In threads [0; 4] ->
  let s := utest threads "//my_test" filter_store
             (TaskSet [("my_test_0", 0); ("my_test_1", 1); ("unwanted_test", 9)] []) callable (exits 0) in
  finished s = true /\ List.length (executed s) = 2 /\ executed_set s = [0; 1].
Proof. intros k [<-|[<-|[]]]; vm_compute; auto. Qed.

(** basic_utest.cpp:166-189 TEST( joque, failed_dep ) *)
Example failed_dep : forall threads, In threads [0; 4] ->
  let s := utest threads "" (Store [1; 2] (fun t => if t =? 2 then plain [1] [] else plain [] []))
             (TaskSet [("my_test_a", 1); ("my_test_b", 2)] []) callable
             (fun t => if t =? 1 then 1%Z else 0%Z) in
  finished s = true /\ ~ In 2 (executed s).
Proof. intros k [<-|[<-|[]]]; vm_compute; intuition discriminate. Qed.

(** basic_utest.cpp:211-232 TEST( joque, cyclic_invalidation ).  Nodes 11, 12, 13; task 1 is
    t, task 2 is t2. *)
Definition inval_ring : dag :=
  add_edge (add_edge (add_edge (emplace (emplace (emplace dag0 11 "//test1" 1) 12 "//test2" 2) 13 "//test3" 2)
    11 12 INVALIDATED_BY) 12 13 INVALIDATED_BY) 13 11 INVALIDATED_BY.
Example cyclic_invalidation : forall is_invalid : bool,
  let c := Config inval_ring 0 (fun _ => plain [] [])
                  (fun n => IvRet (if n =? 11 then is_invalid else false) "") in
  exists er, result (go c (drive c (fun _ => JRet (RunResult 0 [] "")) 100 (init 0))) = RRecord er /\
    er_total er = 3 /\ stat_get (er_stats er) SKIP = if is_invalid then 0 else 3.
Proof. intros [|]; eexists; (split; [vm_compute; reflexivity|split; reflexivity]). Qed.

(** basic_utest.cpp:239-279 TEST( joque, cyclic_after ): the reported cycle, rotated to begin
    with its smallest element, is n1, n2, n3.  (The addresses are in the order of creation
    here, so the smallest one is n1's.) *)
Definition after_ring : dag :=
  add_edge (add_edge (add_edge (emplace (emplace (emplace dag0 11 "//test1" 1) 12 "//test2" 2) 13 "//test3" 3)
    11 12 AFTER) 12 13 AFTER) 13 11 AFTER.
Definition normalize_vec (l : list nid) : list nid :=
  match l with
  | [] => []
  | x :: r =>
      let m := fold_left Nat.min r x in
      let fix rot (k : nat) (l : list nid) : list nid :=
          match k, l with
          | S k, y :: l' => if y =? m then l else rot k (l' ++ [y])
          | _, _ => l
          end in rot (List.length l) l
  end.
Example cyclic_after :
  let c := Config after_ring 0 (fun _ => plain [] []) (fun _ => IvRet false "") in
  let s := go c (drive c (fun _ => JRet (RunResult 0 [] "")) 100 (init 0)) in
  normalize_vec (flat_map (fun e => match e with ECycle cyc => cyc | _ => [] end) (trace s)) = [11; 12; 13].
Proof. vm_compute. reflexivity. Qed.

(** process_utest.cpp:32-62 process_no_update, 64-98 update: cp f1 f2, where f2 is newer /
    older than f1 (times before the epoch, as those of file_clock in our days are). *)
Definition cp : process := derive [DStr "cp"; DPath "/tmp/f1"; DOut "/tmp/f2"].
Definition two_files (t1 t2 : Z) : fs := fun p =>
  if String.eqb p "/tmp/f1" then Some (File t1 "test" true)
  else if String.eqb p "/tmp/f2" then Some (File t2 "" true) else None.
Definition cp_run (t1 t2 : Z) : state :=
  utest 0 "" (Store [1] (fun _ => plain [] [])) (TaskSet [("p", 1)] [])
        (fun _ => job_is_invalidated (fun _ => "") (two_files t1 t2) (JobProcess cp)) (exits 0).
Example process_no_update : exists er, result (cp_run (-200) (-150)) = RRecord er /\
  stat_get (er_stats er) SKIP = 1 /\ stat_get (er_stats er) FAIL = 0 /\
  executed (cp_run (-200) (-150)) = [].
Proof. eexists. split; [vm_compute; reflexivity|]. repeat split; vm_compute; reflexivity. Qed.
Example update : exists er, result (cp_run (-150) (-200)) = RRecord er /\
  stat_get (er_stats er) SKIP = 0 /\ stat_get (er_stats er) FAIL = 0 /\
  executed (cp_run (-150) (-200)) = [1].
Proof. eexists. split; [vm_compute; reflexivity|]. repeat split; vm_compute; reflexivity. Qed.

(** process_utest.cpp:100-119 TEST( joque, corner_cases ).  The second one expects the
    contrary of its comment; it is the behaviour C28_refuted is about. *)
Example corner_cases : forall fmt f, f "/tmp/nothing.txt" = None ->
  iv_invalidated (is_invalidated fmt f (Process [] ["/tmp/nothing.txt"] [] None)) = true /\
  iv_invalidated (is_invalidated fmt f (Process [] [] ["/tmp/nothing.txt"] None)) = false.
Proof. intros fmt f E. split; [reflexivity|]. cbn. unfold fs_exists. now rewrite E. Qed.

(** format_utest.cpp:16-34 TEST( joq, fmt_nested ) *)
Definition out_std (s : string) : list output_chunk := [Chunk STANDARD s].
Definition nl : string := String lf "".
Example fmt_nested :
  format_nested "x" [] = "" /\
  format_nested "x" (out_std "y") = ("xy" ++ nl)%string /\
  format_nested "x" (out_std ("y" ++ nl)) = ("xy" ++ nl)%string /\
  format_nested "x" (out_std ("y" ++ nl ++ "z" ++ nl)) = ("xy" ++ nl ++ "xz" ++ nl)%string.
Proof. repeat split. Qed.

(** list_utest.cpp:30-63: list object 0; node [i] holds the number [i]. *)
Definition empty_list : res heap := hdr_new (fun _ => None) (HL 0).
Definition pushed (h : res heap) (n : nat) : res heap := bind h (fun h => l_emplace_front h 0 n).
Example list_empty : bind empty_list (fun h => l_empty h 0) = Ok true /\
  bind empty_list (fun h => l_begin h 0) = Ok l_end.
Proof. split; reflexivity. Qed.
Example list_sizeone : bind (pushed empty_list 42) (fun h => l_empty h 0) = Ok false /\
  bind (pushed empty_list 42) (fun h => l_begin h 0) = Ok (Some 42).
Proof. split; reflexivity. Qed.
Example list_multiple :
  bind (pushed (pushed (pushed empty_list 3) 2) 1) (fun h => l_elements 4 h 0) = Ok [1; 2; 3].
Proof. reflexivity. Qed.

(** list_ptr_utest.cpp:29-157: a null pointer, one to a node at address 4096 (its header at
    4104), one to a header at 8192. *)
Definition header_in (n : N) : N := (n + 8)%N.
Example ptr_empty :
  lp_type lp_null = NULL_TYPE /\ lp_get_node lp_null = 0%N /\ lp_get_header lp_null = 0%N /\
  lp_find_header header_in lp_null = 0%N /\ lp_match lp_null = MNothing /\
  lp_null <> lp_node 4096 /\ lp_null <> lp_header 8192.
Proof. repeat split; discriminate. Qed.
Example ptr_node : let p := lp_node 4096 in
  lp_type p = NODE_TYPE /\ lp_get_node p = 4096%N /\ lp_get_header p = 0%N /\
  lp_find_header header_in p = 4104%N /\ lp_match p = MNode 4096 /\ p <> lp_header 8192.
Proof. repeat split; discriminate. Qed.
Example ptr_header : let p := lp_header 8192 in
  lp_type p = HEADER_TYPE /\ lp_get_node p = 0%N /\ lp_get_header p = 8192%N /\
  lp_find_header header_in p = 8192%N /\ lp_match p = MHeader 8192.
Proof. repeat split; discriminate. Qed.
