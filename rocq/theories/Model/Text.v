(** Decimal numbers as text: what operator<< / std::format print and operator>> reads, in
    the default ("C") locale.  Standard library behaviour, not joque code. *)
From Coq Require Import String Ascii.
From Verif Require Import Model.Common.
Open Scope string_scope.
Open Scope nat_scope.
Open Scope list_scope.

Definition digit (d : N) : ascii := ascii_of_N (48 + d).

(** The digits of [n] in front of [acc]; one digit per unit of fuel. *)
Fixpoint dec_aux (fuel : nat) (n : N) (acc : string) : string :=
  match fuel with
  | O => acc
  | S f =>
      let acc := String (digit (n mod 10)) acc in
      if (n <? 10)%N then acc else dec_aux f (n / 10) acc
  end.
Definition dec_N (n : N) : string := dec_aux (S (N.size_nat n)) n "".
Definition dec_nat (n : nat) : string := dec_N (N.of_nat n).

(** [os << z], [std::format( "{}", z )] for a signed integer *)
Definition dec_Z (z : Z) : string :=
  if (z <? 0)%Z then "-" ++ dec_N (Z.abs_N z) else dec_N (Z.abs_N z).

(** Range of int. *)
Definition int_min : Z := (-2147483648)%Z.
Definition int_max : Z := 2147483647%Z.

Definition digit_val (a : ascii) : option N :=
  let n := N_of_ascii a in
  if (48 <=? n)%N && (n <=? 57)%N then Some (n - 48)%N else None.

(** The longest run of digits at the front: its value after [acc], and whether there is one. *)
Fixpoint read_digits (s : string) (acc : N) (any : bool) : N * bool :=
  match s with
  | EmptyString => (acc, any)
  | String a r =>
      match digit_val a with
      | Some d => read_digits r (10 * acc + d)%N true
      | None => (acc, any)
      end
  end.

Definition is_space (a : ascii) : bool :=
  let n := N_of_ascii a in (n =? 32)%N || ((9 <=? n)%N && (n <=? 13)%N).
Fixpoint skip_space (s : string) : string :=
  match s with
  | EmptyString => EmptyString
  | String a r => if is_space a then skip_space r else s
  end.

(** [int i = 0; is >> i;]: white space, an optional sign, digits.  No digits: 0; out of
    range: the nearest int. *)
Definition read_int (s : string) : Z :=
  let clamp (z : Z) := Z.max int_min (Z.min int_max z) in
  match skip_space s with
  | String a r =>
      if Ascii.eqb a "-" then clamp (- Z.of_N (fst (read_digits r 0 false)))%Z
      else if Ascii.eqb a "+" then clamp (Z.of_N (fst (read_digits r 0 false)))
      else clamp (Z.of_N (fst (read_digits (String a r) 0 false)))
  | EmptyString => 0%Z
  end.
