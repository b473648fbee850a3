(** What a user may expect of the choice of raw files. *)
From Coq Require Import String.
From Coq Require Import ZArith List.
From Verif Require Import Base Select.
Import ListNotations.
Open Scope Z_scope.

(** [name] is FILE, the four digits of [n], a dot and the extension [x] of three characters. *)
Definition named (name : bytes) (n : Z) (x : bytes) : Prop :=
  0 <= n < 10000 /\ name = b "FILE" ++ pad 4 n ++ b "." ++ x /\ length x = 3%nat.

(** An integer literal: digits, with single underscores between them, an optional sign and blanks around. *)
Definition blank (c : Z) : Prop := c = 32 \/ 9 <= c <= 13 \/ 28 <= c <= 31.
Definition digit (c : Z) : Prop := 48 <= c <= 57.
Inductive digits : bytes -> Prop :=
| last_digit : forall c, digit c -> digits [c]
| next_digit : forall c s, digit c -> digits s -> digits (c :: s)
| next_group : forall c s, digit c -> digits s -> digits (c :: b "_" ++ s).
Definition integer_literal (s : bytes) : Prop :=
  exists l sg ds r, s = l ++ sg ++ ds ++ r /\ Forall blank l /\ Forall blank r /\ digits ds /\
    (sg = [] \/ sg = b "+" \/ sg = b "-").

(** A file of the logger [sn] for a conversion: FILEnnnn.[sn] or FILEnnnn.TXT with [sn] inside, and a number that
    was asked for. *)
Definition candidate (sn : bytes) (f : entry) : Prop := exists n, named (e_name f) n sn \/ named (e_name f) n (b "TXT").
Definition wanted (sn : bytes) (nums : option (list Z)) (f : entry) (n : Z) : Prop :=
  (named (e_name f) n sn \/ named (e_name f) n (b "TXT")) /\ e_sn f = Some sn /\
  match nums with Some ((_ :: _) as l) => In n l | _ => True end.

(** A file to be read for [sn]: numbers in [nums], more than ten bytes, and either the extension [sn] or
    extension TXT with a serial number inside that starts with [sn]. *)
Definition readable (sn : bytes) (nums : list Z) (f : entry) : Prop :=
  exists n x, named (e_name f) n x /\ In n nums /\ 10 < e_size f /\
    ((x = sn /\ x <> b "TXT") \/ (x = b "TXT" /\ exists s, e_sn f = Some s /\ firstn 3 s = sn)).
