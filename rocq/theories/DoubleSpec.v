(** Numbers in double precision (IEEE 754 binary64), and what it is to compute with them. *)
From Coq Require Import ZArith QArith Qabs List.
From Verif Require Import Base Scan Parser Process.
Import ListNotations.
Open Scope Q_scope.

(** The finite doubles: up to 53 bits and a power of two. *)
Definition double (x : Q) : Prop := exists m e : Z, (Z.abs m < 2 ^ 53)%Z /\ (-1074 <= e <= 971)%Z /\ x == inject_Z m * 2 ^ e.
Definition largest : Q := inject_Z (2 ^ 53 - 1) * 2 ^ 971.

(** Rounding to a nearest double (of two that are equally near, either). *)
Definition rounds_to_nearest (rnd : Q -> Q) : Prop :=
  forall x, Qabs x <= largest -> double (rnd x) /\ forall y, double y -> Qabs (rnd x - x) <= Qabs (y - x).

(** A whole number with absolute value up to [n]. *)
Definition whole (n : Z) (x : Q) : Prop := exists z : Z, x == inject_Z z /\ (Z.abs z <= n)%Z.

(** A table of a raw file with whole clock values (up to 2^40 ms) and counts (up to 2^26), of up to 2^26 rows. *)
Definition whole_row (d : drow) : Prop :=
  whole (2 ^ 40) (dsaw d) /\ (dkind d = KD -> Forall (fun c => forall x, c = Num x -> whole (2 ^ 26) x) (firstn 1 (dcells d))).
Definition whole_table (df : list drow) : Prop := Forall whole_row df /\ (Z.of_nat (length df) <= 2 ^ 26)%Z.

(** The rows of a raw file have whole clock values (up to 2^40 ms) and its samples are whole numbers up to 2^26. *)
Definition whole_file (sc : scanner) (buf0 bs : bytes) : Prop :=
  forall n rows, parse_gemfile sc buf0 n bs = Some rows -> Forall (fun r => whole_row (drow_of r)) rows.

(** Two tables that agree but for the times of the samples, which are within [eps] of each other. *)
Definition same_value (x y : option Q) : Prop :=
  match x, y with Some a, Some c => a == c | None, None => True | _, _ => False end.
Definition same_fix (x y : fix_ * Z) : Prop :=
  snd x = snd y /\ msPPS (fst x) == msPPS (fst y) /\ msLag (fst x) = msLag (fst y) /\ gyear (fst x) = gyear (fst y) /\ gmonth (fst x) = gmonth (fst y) /\
  gday (fst x) = gday (fst y) /\ ghour (fst x) = ghour (fst y) /\ gminute (fst x) = gminute (fst y) /\ gsecond (fst x) = gsecond (fst y) /\
  glat (fst x) = glat (fst y) /\ glon (fst x) = glon (fst y).
Definition close_tables (eps : Q) (t u : tables) : Prop :=
  Forall2 (fun p q => Qabs (fst p - fst q) <= eps /\ same_value (snd p) (snd q)) (data t) (data u) /\
  Forall2 (fun p q => fst p == fst q /\ snd p = snd q) (metadata t) (metadata u) /\
  Forall2 same_fix (gps t) (gps u).
Definition close_results (eps : Q) (x y : res tables) : Prop :=
  match x, y with inl t, inl u => close_tables eps t u | inr e, inr f => e = f | _, _ => False end.
