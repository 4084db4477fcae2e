(** A reader for XML documents made of elements and attributes (no text between the
    tags except white space), and the shape of a JUnit report.  Independent of the code. *)
From Coq Require Import String Ascii List NArith Bool.
Import ListNotations.
Open Scope string_scope.
Open Scope list_scope.

Inductive xml := Elem (name : string) (attrs : list (string * string)) (children : list xml).
Definition el_name (x : xml) := match x with Elem n _ _ => n end.
Definition el_attrs (x : xml) := match x with Elem _ a _ => a end.
Definition el_children (x : xml) := match x with Elem _ _ c => c end.

(** Characters. *)
Definition white (c : ascii) : bool :=
  let n := N_of_ascii c in (n =? 32)%N || (n =? 9)%N || (n =? 10)%N || (n =? 13)%N.
Definition name_char (c : ascii) : bool :=
  let n := N_of_ascii c in
  ((97 <=? n)%N && (n <=? 122)%N) || ((65 <=? n)%N && (n <=? 90)%N) || ((48 <=? n)%N && (n <=? 57)%N) ||
  (n =? 45)%N || (n =? 46)%N || (n =? 95)%N || (n =? 58)%N.

Definition entity (e : string) : option ascii :=
  if String.eqb e "lt" then Some "<"%char else if String.eqb e "gt" then Some ">"%char
  else if String.eqb e "amp" then Some "&"%char else if String.eqb e "apos" then Some "'"%char
  else if String.eqb e "quot" then Some (ascii_of_nat 34) else None.

(** Where the reader is; the strings and lists are what it has read so far. *)
Inductive mode :=
| Outside                                                        (* between tags *)
| Less                                                           (* after < *)
| OpenName (n : string)
| InTag (n : string) (a : list (string * string))                (* after white space in a tag *)
| AttrName (n : string) (a : list (string * string)) (k : string)
| AttrEq (n : string) (a : list (string * string)) (k : string)  (* after = *)
| AttrVal (n : string) (a : list (string * string)) (k v : string)
| AttrEnt (n : string) (a : list (string * string)) (k v e : string) (* after & in a value *)
| AttrEnd (n : string) (a : list (string * string))              (* after the closing quote *)
| Slash (n : string) (a : list (string * string))                (* after / in a tag *)
| CloseName (n : string)
| Decl                                                           (* in <? ... *)
| DeclEnd                                                        (* after ? in it *)
| Error.

(** Elements still open, innermost first, each with its children so far; and the elements
    that are complete at the top. *)
Record reader := Reader {
  rd_mode : mode;
  rd_open : list (string * list (string * string) * list xml);
  rd_top  : list xml }.

Definition add_elem (r : reader) (x : xml) : reader :=
  match rd_open r with
  | [] => Reader Outside [] (rd_top r ++ [x])
  | (n, a, c) :: o => Reader Outside ((n, a, c ++ [x]) :: o) (rd_top r)
  end.
Definition open_elem (r : reader) (n : string) (a : list (string * string)) : reader :=
  Reader Outside ((n, a, []) :: rd_open r) (rd_top r).
Definition close_elem (r : reader) (n : string) : reader :=
  match rd_open r with
  | (n', a, c) :: o =>
      if String.eqb n n' then add_elem (Reader Outside o (rd_top r)) (Elem n a c)
      else Reader Error [] []
  | [] => Reader Error [] []
  end.

Definition snoc (s : string) (c : ascii) : string := (s ++ String c "")%string.
Definition fresh_key (k : string) (a : list (string * string)) : bool :=
  negb (existsb (fun p => String.eqb (fst p) k) a).

Definition read_char (r : reader) (c : ascii) : reader :=
  let go m := Reader m (rd_open r) (rd_top r) in
  match rd_mode r with
  | Outside => if white c then r else if Ascii.eqb c "<" then go Less else go Error
  | Less =>
      if Ascii.eqb c "/" then go (CloseName "")
      else if Ascii.eqb c "?" then go Decl
      else if name_char c then go (OpenName (String c "")) else go Error
  | OpenName n =>
      if name_char c then go (OpenName (snoc n c))
      else if white c then go (InTag n [])
      else if Ascii.eqb c ">" then open_elem r n []
      else if Ascii.eqb c "/" then go (Slash n []) else go Error
  | InTag n a =>
      if white c then r
      else if name_char c then go (AttrName n a (String c ""))
      else if Ascii.eqb c ">" then open_elem r n a
      else if Ascii.eqb c "/" then go (Slash n a) else go Error
  | AttrName n a k =>
      if name_char c then go (AttrName n a (snoc k c))
      else if Ascii.eqb c "=" && fresh_key k a then go (AttrEq n a k) else go Error
  | AttrEq n a k => if Ascii.eqb c (ascii_of_nat 34) then go (AttrVal n a k "") else go Error
  | AttrVal n a k v =>
      if Ascii.eqb c (ascii_of_nat 34) then go (AttrEnd n (a ++ [(k, v)]))
      else if Ascii.eqb c "<" then go Error
      else if Ascii.eqb c "&" then go (AttrEnt n a k v "")
      else if white c then go (AttrVal n a k (snoc v " "))
      else if (N_of_ascii c <? 32)%N then go Error
      else go (AttrVal n a k (snoc v c))
  | AttrEnt n a k v e =>
      if Ascii.eqb c ";" then
        match entity e with Some x => go (AttrVal n a k (snoc v x)) | None => go Error end
      else if name_char c then go (AttrEnt n a k v (snoc e c)) else go Error
  | AttrEnd n a =>
      if white c then go (InTag n a)
      else if Ascii.eqb c ">" then open_elem r n a
      else if Ascii.eqb c "/" then go (Slash n a) else go Error
  | Slash n a => if Ascii.eqb c ">" then add_elem (go Outside) (Elem n a []) else go Error
  | CloseName n =>
      if name_char c then go (CloseName (snoc n c))
      else if Ascii.eqb c ">" then close_elem r n else go Error
  | Decl => if Ascii.eqb c "?" then go DeclEnd else go Decl
  | DeclEnd => if Ascii.eqb c ">" then go Outside else if Ascii.eqb c "?" then r else go Decl
  | Error => r
  end.

Fixpoint read_chars (r : reader) (s : string) : reader :=
  match s with EmptyString => r | String c t => read_chars (read_char r c) t end.

(** The element a document consists of, if it is well formed. *)
Definition parse_xml (s : string) : option xml :=
  match read_chars (Reader Outside [] []) s with
  | Reader Outside [] [x] => Some x
  | _ => None
  end.

(** Text that stands for itself in an attribute value: no quote, no <, no &, no control
    characters. *)
Definition plain_char (c : ascii) : Prop :=
  (32 <= N_of_ascii c)%N /\ c <> ascii_of_nat 34 /\ c <> "<"%char /\ c <> "&"%char.
Fixpoint plain_text (s : string) : Prop :=
  match s with EmptyString => True | String c t => plain_char c /\ plain_text t end.

(** An element "testcase" named [name], with a "failure" element in it iff [failed]. *)
Definition is_case (name : string) (failed : bool) (x : xml) : Prop :=
  el_name x = "testcase" /\ In ("name", name) (el_attrs x) /\
  if failed then exists a, el_children x = [Elem "failure" a []] else el_children x = [].
Definition has_failure (x : xml) : bool :=
  existsb (fun y => String.eqb (el_name y) "failure") (el_children x).
