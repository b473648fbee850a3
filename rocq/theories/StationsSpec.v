(** What a user may expect of station tables. *)
From Coq Require Import String.
From Coq Require Import ZArith List Permutation.
From Verif Require Import Base.
Import ListNotations.
Open Scope Z_scope.

(** Two names are the same but for capitals. *)
Inductive same_letter : Z -> Z -> Prop :=
| sl_same c : same_letter c c
| sl_upper c : 65 <= c <= 90 -> same_letter c (c + 32)
| sl_lower c : 65 <= c <= 90 -> same_letter (c + 32) c.
Definition same_name (a c : bytes) : Prop := Forall2 same_letter a c.

(** The header has each of the four column names once, in any order and capitalisation; possibly also
    "elevation"; nothing else. *)
Definition four : list bytes := [b "sn"; b "network"; b "station"; b "location"].
Definition five : list bytes := four ++ [b "elevation"].
Definition good_header (h : list bytes) : Prop :=
  exists p, (Permutation p four \/ Permutation p five) /\ Forall2 same_name h p.

(** [c] is the cell of [row] in the column with heading [k]. *)
Inductive cell_under (k : bytes) : list bytes -> list bytes -> bytes -> Prop :=
| under_here n h c r : same_name n k -> cell_under k (n :: h) (c :: r) c
| under_next n h c' r c : cell_under k h r c -> cell_under k (n :: h) (c' :: r) c.

(** The codes belonging to a serial number: those of the first row with it. *)
Inductive codes_in (h : list bytes) (sn : bytes) : list (list bytes) -> option (bytes * bytes * bytes) -> Prop :=
| codes_none : codes_in h sn [] None
| codes_here row rows n s l :
    cell_under (b "sn") h row sn -> cell_under (b "network") h row n -> cell_under (b "station") h row s ->
    cell_under (b "location") h row l -> codes_in h sn (row :: rows) (Some (n, s, l))
| codes_next row rows sn' r :
    cell_under (b "sn") h row sn' -> sn' <> sn -> codes_in h sn rows r -> codes_in h sn (row :: rows) r.

(** Each distinct element once, where it first occurs. *)
Inductive first_occurrences {A} : list A -> list A -> list A -> Prop :=   (* already seen, input, output *)
| fo_nil seen : first_occurrences seen [] []
| fo_new seen x l m : ~ In x seen -> first_occurrences (x :: seen) l m -> first_occurrences seen (x :: l) (x :: m)
| fo_old seen x l m : In x seen -> first_occurrences seen l m -> first_occurrences seen (x :: l) m.

(** A text begins like a table without heading: four or five cells that are not all headings. *)
Definition heading (c : bytes) : Prop := exists k, In k five /\ same_name c k.

(** [m] is the earliest of the times. *)
Definition earliest (l : list Z) (m : Z) : Prop := In m l /\ Forall (fun t => m <= t) l.
