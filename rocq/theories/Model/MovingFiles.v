(** src/process.cpp: the check of a process while the files change. *)
From Coq Require Import String.
From Verif Require Import Model.Common Model.Text Model.Process Model.FileQueries.
Open Scope string_scope.
Open Scope nat_scope.
Open Scope list_scope.

(** [qs k] answers the query with number [k]; a computation gets the number of its first query
    and returns its value and the number of the next query; [None]: throws.  [first k]: which of
    the two arguments of a comparison is evaluated first (unspecified in C++), if the first
    query of the comparison has number [k]. *)
Definition checking (A : Type) : Type := nat -> option (A * nat).
Definition mret {A} (a : A) : checking A := fun k => Some (a, k).
Definition mbind {A B} (x : checking A) (f : A -> checking B) : checking B :=
  fun k => match x k with Some (a, k') => f a k' | None => None end.

Section Check.
Context (fmt_time : Z -> string) (first : nat -> bool) (qs : nat -> queries).

(** std::filesystem::exists, last_write_time, and reading a retcode file *)
Definition m_exists (p : path) : checking bool :=
  fun k => match q_exists (qs k) p with Some b => Some (b, S k) | None => None end.
Definition m_time (p : path) : checking Z :=
  fun k => match q_time (qs k) p with Some t => Some (t, S k) | None => None end.
Definition m_retcode (p : path) : checking Z :=
  fun k => Some (q_retcode (qs k) p, S k).

(** process.cpp:26-32 path_to_write_time *)
Definition m_write_time (p : path) : checking Z :=
  mbind (m_exists p) (fun b => if b then m_time p else mret 0%Z).

(** The two arguments of one comparison. *)
Definition m_both (a b : path) : checking (Z * Z) :=
  fun k =>
    if first k
    then mbind (m_write_time a) (fun x => mbind (m_write_time b) (fun y => mret (x, y))) k
    else mbind (m_write_time b) (fun y => mbind (m_write_time a) (fun x => mret (x, y))) k.

(** std::ranges::min_element, max_element: both elements are examined again at each
    comparison. *)
Fixpoint m_min_element (x : path) (l : list path) : checking path :=
  match l with
  | [] => mret x
  | y :: r => mbind (m_both y x) (fun ab =>
      if (fst ab <? snd ab)%Z then m_min_element y r else m_min_element x r)
  end.
Fixpoint m_max_element (x : path) (l : list path) : checking path :=
  match l with
  | [] => mret x
  | y :: r => mbind (m_both x y) (fun ab =>
      if (fst ab <? snd ab)%Z then m_max_element y r else m_max_element x r)
  end.
(** std::ranges::all_of *)
Fixpoint m_all_exist (l : list path) : checking bool :=
  match l with
  | [] => mret true
  | p :: r => mbind (m_exists p) (fun b => if b then m_all_exist r else mret false)
  end.

(** process.cpp:81-114, the part after the retcode file *)
Definition m_tail (p : process) : checking inval_result :=
  match p_output p with
  | [] => mret (InvalResult true "no output")                                    (* 81-82 *)
  | o :: os =>
      match p_input p with
      | [] => mbind (m_all_exist (o :: os)) (fun b =>
                mret (InvalResult b "output existance"))                         (* 84-91 *)
      | i :: is =>
          mbind (m_min_element o os) (fun oldest =>                              (* 93-94 *)
          mbind (m_exists oldest) (fun b =>
          if negb b
          then mret (InvalResult true ("missing output: " ++ oldest))             (* 96-98 *)
          else
            mbind (m_max_element i is) (fun latest =>                            (* 100-101 *)
            mbind (m_write_time oldest) (fun ot =>                               (* 103 *)
            mbind (m_write_time latest) (fun it =>                               (* 104 *)
            mret (InvalResult (ot <=? it)%Z
              ("oldest output " ++ oldest ++ " t: " ++ fmt_time ot ++ " " ++ newline ++
               " latest input " ++ latest ++ " t: " ++ fmt_time it)))))))         (* 106-114 *)
      end
  end.

(** process.cpp:61-115 job_traits<process>::is_invalidated *)
Definition m_is_invalidated (p : process) : checking inval_result :=
  match p_retcode p with
  | None => m_tail p
  | Some rf =>                                                                    (* 63-79 *)
      mbind (m_exists rf) (fun b =>
      if negb b then mret (InvalResult true ("no retcode file" ++ rf))
      else mbind (m_retcode rf) (fun c =>
           if (c =? 0)%Z then m_tail p
           else mret (InvalResult true ("last retcode is nonzero: " ++ dec_Z c ++ " in " ++ rf))))
  end.
End Check.
