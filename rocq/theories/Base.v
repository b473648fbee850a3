(** Shared vocabulary of the model: byte strings, decimal text, rational helpers.

    Python/C strings and file contents are lists of bytes, a byte being a [Z].
    Numbers that the code keeps in C doubles / numpy float64 are rationals [Q]
    (floating-point rounding is idealised away, see DESIGN.md section 3). *)
From Coq Require Import String Ascii.
From Coq Require Import ZArith QArith Qround List Bool.
Import ListNotations.
Open Scope Z_scope.

Definition bytes := list Z.

(** Coq string literal to bytes, only used to write literals readably. *)
Fixpoint b (s : string) : bytes :=
  match s with
  | EmptyString => []
  | String a r => Z.of_nat (nat_of_ascii a) :: b r
  end.

Definition eqb_bytes (x y : bytes) : bool :=
  if list_eq_dec Z.eq_dec x y then true else false.

(** Python's [%] on numbers: result has the sign of the divisor
    (used by core.py 665/870 and, with Cython's default cdivision=False, by parsers.pyx 84/86/98). *)
Definition Qmod (x r : Q) : Q := (x - r * inject_Z (Qfloor (x / r)))%Q.

Definition Qltb (x y : Q) : bool := negb (Qle_bool y x).

(** The decimal digits (values 0..9) of a non-negative integer, most significant first, "0" for 0.
    Structural recursion on a bound for the number of digits. *)
Fixpoint digits_aux (fuel : nat) (n : Z) (acc : list Z) : list Z :=
  match fuel with
  | O => acc
  | S f => let acc' := (n mod 10) :: acc in
           if n / 10 =? 0 then acc' else digits_aux f (n / 10) acc'
  end.

Definition digits (n : Z) : list Z := digits_aux (S (Z.to_nat (Z.log2 n))) n [].

(** Python's [str(n)] for an integer. *)
Definition str_Z (n : Z) : bytes :=
  if n <? 0 then 45 :: map (Z.add 48) (digits (- n)) else map (Z.add 48) (digits n).

(** Python's [f'{n:0w}'] for a non-negative integer: left-pad with '0' to width w. *)
Definition pad (w : nat) (n : Z) : bytes :=
  let s := map (Z.add 48) (digits n) in repeat 48 (w - length s) ++ s.

Definition is_digit (c : Z) : bool := (48 <=? c) && (c <=? 57).
