(** Lines that are written with blanks before their numbers, or with a plus sign.
    Specification for the number syntax of the raw-file reader (parsers.pyx 95, 107-110, 126-130). *)
From Coq Require Import ZArith QArith List Bool.
From Verif Require Import Base Scan Parser ParserSpec.
Import ListNotations.
Open Scope Z_scope.

(** Space, tab, line feed, vertical tab, form feed, carriage return. *)
Definition blank (c : Z) : Prop := In c [32; 9; 10; 11; 12; 13].

(** A field with the blanks in front of it, and possibly a plus sign. *)
Record padded := { p_blanks : bytes; p_plus : bool; p_field : field }.

Definition negative (f : field) : bool :=
  match f with FInt i => ineg i | FDec d => dneg d end.

Definition padded_ok (c : conv) (p : padded) : Prop :=
  Forall blank (p_blanks p) /\ field_ok c (p_field p) /\ (p_plus p = true -> negative (p_field p) = false).

Definition padded_text (p : padded) : bytes :=
  p_blanks p ++ (if p_plus p then [43] else []) ++ field_text (p_field p).

Definition padded_value (p : padded) : Q := field_value (p_field p).

Fixpoint padded_join (ps : list padded) : bytes :=
  match ps with
  | [] => []
  | [p] => padded_text p
  | p :: r => padded_text p ++ 44 :: padded_join r
  end.

(** The first bytes of a line of each kind and the documented fields after them. *)
Definition marker (k : kind) : bytes :=
  match k with KD => [68] | KG => [71; 44] | KM => [77; 44] end.
Definition columns (k : kind) : list conv :=
  match k with
  | KD => [Clf; Cd]
  | KG => [Clf; Clf; Cd; Cd; Cd; Cd; Cd; Clf; Clf; Clf]
  | KM => [Clf; Clf; Clf; Clf; Clf; Cd; Cd; Cd; Cd; Cd; Cd; Cd]
  end.
